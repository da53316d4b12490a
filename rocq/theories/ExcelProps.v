(** C53: what the Excel export of an object writes.
    C54: when the object read in such a file is the one that was written.
    C55: catalogs. *)
From Coq Require Import Ascii String ZArith QArith Bool Arith Lia.
From Verif Require Import Base BaseProofs TableModel ExcelModel ExcelSpec ExcelProofs ExcelWritten ExcelRead
  ExcelExchange ExcelSheets ExcelCatalog.
From Coq Require Import List Permutation Sorted.
Import ListNotations.
Open Scope list_scope.
Open Scope nat_scope.

Section Equality.
Variable same : nat -> nat -> bool.
Hypothesis same_refl : forall a, same a a = true.
Hypothesis same_sym : forall a b, same a b = true -> same b a = true.
Hypothesis same_trans : forall a b c, same a b = true -> same b c = true -> same a c = true.

(** The first sheet shows the object, then comes a sheet for each class in its parts, with a row
    for each of its objects. *)
Theorem C53_sheets pystr round6 m c i a wb :
  sound same (VObj m c i a) -> well_named (VObj m c i a) ->
  written same pystr round6 (VObj m c i a) = Ok wb ->
  exists main others, wb = main :: others
    /\ title main = ("Object " ++ c)%string
    /\ describes same pystr round6 (VObj m c i a) main m c [(VObj m c i a, fun path => path = ""%string)]
    /\ map title others = classes_of (VObj m c i a)
    /\ forall s, In s others -> exists j m' a',
         hd_error (members same (VObj m c i a) (title s)) = Some j
         /\ object_of (VObj m c i a) j = VObj m' (title s) j a'
         /\ describes same pystr round6 (VObj m c i a) s m' (title s)
              (map (fun j => (object_of (VObj m c i a) j,
                              fun path => exists o, In (title s, o, path) (visited (VObj m c i a)) /\ same o j = true))
                   (members same (VObj m c i a) (title s))).
Proof.
  intros Sv Wv E.
  destruct (sheets_described same same_refl same_sym same_trans pystr round6 m c i a Sv Wv wb E)
    as (main & others & -> & T & D & F).
  exists main, others. split; auto. split; auto. split; auto. split.
  - clear - F. induction F as [|k s l ss [H _] F IH]; simpl; congruence.
  - intros s Hs. destruct (forall2_in_r _ _ _ F s Hs) as (k & _ & <- & H). exact H.
Qed.

(** The objects that are visited are those one gets to by positions in lists, tuples and sets,
    keys of dictionaries and names of attributes that do not begin with an underscore. *)
Theorem C53_visited v c i p :
  In (c, i, p) (visited v) <->
  exists m a r, at_path v r (VObj m c i a) /\ p = BreakdownSpec.path_text r /\ p <> ""%string.
Proof.
  rewrite visited_found. split.
  - intros (r & F & E & N). apply seen_found in F. destruct F as (m & a & P). exists m, a, r. split; auto. split; auto.
    rewrite E. apply BreakdownProofs.extend_text.
  - intros (m & a & r & P & E & N). exists r. split; [apply seen_found; eauto|]. split; auto.
    rewrite E. symmetry. apply BreakdownProofs.extend_text.
Qed.

(** Each object in the parts of the object has one row, equal objects having the same. *)
Theorem C53_one_row v c i p :
  In (c, i, p) (visited v) ->
  NoDup (classes_of v) /\ In c (classes_of v)
  /\ exists n j, nth_error (members same v c) n = Some j /\ same j i = true
     /\ forall n' j', nth_error (members same v c) n' = Some j' -> same j' i = true -> n' = n.
Proof.
  intros H. split; [apply (paths_spec same same_refl same_sym same_trans v)|].
  split; [eapply class_of_visited; eauto|]. destruct (member_of same same_refl same_sym v c i p H) as (n & j & Hn & S). exists n, j. split; auto. split; auto.
  intros n' j' Hn' S'. destruct (paths_of_class same same_refl same_sym same_trans v c (class_of_visited v c i p H)) as [refs Hr].
  destruct (paths_spec same same_refl same_sym same_trans v) as (_ & _ & Ps). destruct (Ps _ _ Hr) as (Em & _ & D & _).
  rewrite <- Em, nth_error_map in Hn, Hn'.
  destruct (nth_error refs n) as [[k q]|] eqn:Hq; [|discriminate]. destruct (nth_error refs n') as [[k' q']|] eqn:Hq'; [|discriminate].
  injection Hn as ->. injection Hn' as ->. eapply D; [exact Hq'|exact Hq|]. eapply same_trans; [exact S'|]. apply same_sym. auto.
Qed.

(** The export fails on names that are no scalars, on sets of objects, and when the object has
    no name. *)
Theorem C53_writes pystr round6 m c i a :
  sound same (VObj m c i a) ->
  ((exists wb, written same pystr round6 (VObj m c i a) = Ok wb) <->
   In "name"%string (map fst a) /\ exportable a
   /\ forall k j, In j (members same (VObj m c i a) k) -> exportable (dict_of (object_of (VObj m c i a) j))).
Proof. intros Sv. apply written_iff; auto. Qed.

(** Writing an object and reading the file. *)
Theorem C54_round_trip pystr literal round6 classes m c i a :
  exchangeable same pystr literal round6 classes (VObj m c i a) ->
  exists w, exchanged same pystr literal round6 classes (VObj m c i a) = Ok w /\ canon w = canon (VObj m c i a).
Proof. intros X. apply exchange_ok; auto. Qed.

(** An object with a dictionary, not empty, is never read. *)
Theorem C54_dictionaries pystr literal round6 classes m c i a k d :
  In (k, VDict d) a -> d <> [] -> (forall k', k <> String "_" k') -> k <> "name"%string ->
  exists e, exchanged same pystr literal round6 classes (VObj m c i a) = Err e.
Proof. apply dictionary_fails. Qed.
End Equality.

(** Reading a cell of the first sheet, or of a sheet of one row, that links to an object: the
    row of the link does not matter, the object is the first that was read in the sheet. *)
Theorem C54_row_ignored wb inst t k row o os :
  In k (map title wb) -> get k inst = Some (o :: os) ->
  (forall w, In w ["Dict"; "List"; "Set"; "Tuple"]%string -> ~ within w t) ->
  linked_value wb inst {| content := CText t; link := Some (k, row) |} = Ok o.
Proof.
  intros Hk G W. unfold linked_value, get_location. cbn [link fst].
  assert (existsb (fun s => String.eqb (title s) k) wb = true) as ->.
  { apply existsb_exists. apply in_map_iff in Hk. destruct Hk as (s & <- & Hs). exists s. split; auto. apply String.eqb_refl. }
  cbn [bind fst]. rewrite G. cbn [of_option bind]. unfold update_attribute_values. cbn [content].
  assert (N : forall w, In w ["Dict"; "List"; "Set"; "Tuple"]%string -> has_word w t = false).
  { intros w Hw. apply no_word; auto. intros ->. simpl in Hw. intuition discriminate. }
  rewrite (N "Dict"%string) by (simpl; auto). cbn [existsb]. rewrite !N by (simpl; auto). reflexivity.
Qed.

(** A catalog gives, under the title of each sheet, an object per row from the third on. *)
Theorem C55_catalog pystr literal classes wb inst s m c :
  read_catalog pystr literal classes wb = Ok inst -> NoDup (map title wb) -> In s wb ->
  content (cell_at s 1 1) = CText m -> content (cell_at s 1 2) = CText c ->
  exists params os, classes (m ++ "." ++ c)%string = Ok params
    /\ get (title s) inst = Some os /\ List.length os = height s - 2
    /\ forall n o, nth_error os n = Some o -> made literal params s (3 + n) m c o.
Proof. apply catalog_spec. Qed.

(** A name that is twice in the header is refused, unless an empty cell is there twice before. *)
Theorem C55_duplicates pystr literal classes wb s k col col' :
  In s wb -> 1 <= col < col' -> k <> ""%string ->
  content (cell_at s 2 col) = CText k -> content (cell_at s 2 col') = CText k ->
  (forall col1 col2, 1 <= col1 < col2 -> col2 < col' -> content (cell_at s 2 col1) = CNone -> content (cell_at s 2 col2) <> CNone) ->
  (forall col1 sc, 1 <= col1 < col' -> content (cell_at s 2 col1) = sc -> sc = CNone \/ exists t, sc = CText t /\ t <> ""%string) ->
  exists e, read_catalog pystr literal classes wb = Err e.
Proof. apply duplicate_refused. Qed.

(** A catalog is read when the names in each header are different texts and each parameter that
    is not there has a default value, other than the text empty. *)
Theorem C55_reads pystr literal classes wb :
  (forall s, In s wb -> exists m c params,
     content (cell_at s 1 1) = CText m /\ content (cell_at s 1 2) = CText c /\ classes (m ++ "." ++ c)%string = Ok params
     /\ (forall col col', 1 <= col < col' -> match content (cell_at s 2 col), content (cell_at s 2 col') with
                                             | CText k, CText k' => k <> k' \/ k = ""%string
                                             | CText _, CNone | CNone, CText _ | CNone, CNone => True
                                             | _, _ => False
                                             end)
     /\ forall k d, In (k, d) params -> (forall col, 1 <= col -> content (cell_at s 2 col) <> CText k) ->
          exists x, d = Some x /\ x <> VStr "empty") ->
  exists inst, read_catalog pystr literal classes wb = Ok inst.
Proof. apply catalog_reads. Qed.

(** A parameter without default value, or with the default value empty, is asked for, unless there
    are as many columns as parameters. *)
Theorem C55_missing pystr literal classes wb s m c params k d :
  In s wb -> content (cell_at s 1 1) = CText m -> content (cell_at s 1 2) = CText c ->
  classes (m ++ "." ++ c)%string = Ok params -> In (k, d) params -> d = None \/ d = Some (VStr "empty") ->
  (forall col, 1 <= col -> content (cell_at s 2 col) <> CText k) ->
  fold_right (fun r n => max (List.length r) n) 0 (grid s) <> List.length params ->
  exists e, read_catalog pystr literal classes wb = Err e.
Proof. intros Hs Em Ec Ep Hk Hd. eapply catalog_missing; eauto. destruct Hd as [-> | ->]; reflexivity. Qed.

Print Assumptions C53_visited.
Print Assumptions C55_reads.
Print Assumptions C55_missing.
Print Assumptions C54_dictionaries.
Print Assumptions C54_row_ignored.
Print Assumptions C55_catalog.
Print Assumptions C55_duplicates.
Print Assumptions C53_sheets.
Print Assumptions C53_one_row.
Print Assumptions C53_writes.
Print Assumptions C54_round_trip.

(** ** Examples *)

Definition ex_str (x : value) : string :=
  match x with
  | VNone => "None"
  | VInt z => nat_str (Z.to_nat z)
  | VList [VInt a; VInt b] => "[" ++ nat_str (Z.to_nat a) ++ ", " ++ nat_str (Z.to_nat b) ++ "]"
  | _ => "?"
  end.
Definition ex_literal (s : string) : option value :=
  if String.eqb s "None" then Some VNone
  else if String.eqb s "[5, 6]" then Some (VList [VInt 5; VInt 6])
  else option_map (fun n => VInt (Z.of_nat n)) (find (fun n => String.eqb (nat_str n) s) (seq 0 20)).
Definition ex_classes (full : string) : res (list (string * option value)) :=
  if String.eqb full "m.Point" then Ok [("x", None); ("y", None); ("name", Some (VStr ""))]%string
  else if String.eqb full "m.Circle" then Ok [("center", None); ("radius", None); ("name", Some (VStr ""))]%string
  else if String.eqb full "m.Line" then Ok [("start", None); ("end", None); ("name", Some (VStr ""))]%string
  else if String.eqb full "m.Drawing" then
    Ok [("circle", None); ("points", None); ("label", None); ("count", Some (VInt 1)); ("pair", None); ("name", Some (VStr ""))]%string
  else Err AttributeError.

Definition ex_point (i : nat) (x y : Z) (name : string) : value :=
  VObj "m" "Point" i [("x", VInt x); ("y", VInt y); ("name", VStr name)]%string.
Definition ex_circle : value :=
  VObj "m" "Circle" 3 [("center", ex_point 1 1 2 "a"); ("radius", VFloat (5#2)); ("name", VStr "round")]%string.
Definition ex_drawing : value :=
  VObj "m" "Drawing" 0 [("circle", ex_circle); ("points", VList [ex_point 1 1 2 "a"; ex_point 2 3 4 ""]);
                        ("label", VStr "hello"); ("count", VInt 7); ("pair", VList [VInt 5; VInt 6]); ("name", VStr "d")]%string.
Notation ex_same := Nat.eqb.
Notation ex_written := (written ex_same ex_str (fun q => q)).
Notation ex_exchanged := (exchanged ex_same ex_str ex_literal (fun q => q) ex_classes).

Example C53_sheets_example :
  option_map (map (fun s => (title s, map (map (fun cl => (content cl, link cl))) (grid s))))
    (match ex_written ex_drawing with Ok wb => Some wb | Err _ => None end)
  = Some
    [("Object Drawing",
      [[(CText "Module", None); (CText "Class", None); (CText "name", None)];
       [(CText "m", None); (CText "Drawing", None); (CText "d", None)];
       [(CText "Path", None); (CText "name", None); (CText "circle", None); (CText "count", None); (CText "label", None); (CText "pair", None); (CText "points", None)];
       [(CNone, None); (CText "d", None); (CText "circle", Some ("Circle", 4)); (CText "7", None); (CText "hello", None);
        (CText "[5, 6]", None); (CText "List of 2 items", Some ("Point", 2))]]);
     ("Circle",
      [[(CText "Module", None); (CText "Class", None)]; [(CText "m", None); (CText "Circle", None)];
       [(CText "Path", None); (CText "name", None); (CText "center", None); (CText "radius", None)];
       [(CText "circle", None); (CText "round", None); (CText "circle.center", Some ("Point", 4)); (CNum (5#2), None)]]);
     ("Point",
      [[(CText "Module", None); (CText "Class", None)]; [(CText "m", None); (CText "Point", None)];
       [(CText "Path", None); (CText "name", None); (CText "x", None); (CText "y", None)];
       [(CText "circle.center", None); (CText "a", None); (CText "1", None); (CText "2", None)];
       [(CText "points.1", None); (CNone, None); (CText "3", None); (CText "4", None)]])]%string.
Proof. vm_compute. reflexivity. Qed.

Lemma ex_objects x : In x (objects ex_drawing) ->
  x = ex_drawing \/ x = ex_circle \/ x = ex_point 1 1 2 "a" \/ x = ex_point 2 3 4 "".
Proof. intros H. simpl in H. intuition auto. Qed.

Lemma ex_kept_int z : (0 <= z < 10)%Z -> kept ex_str ex_literal (fun q => q) (VInt z).
Proof.
  intros H. assert (E : exists n, n < 10 /\ z = Z.of_nat n) by (exists (Z.to_nat z); lia). destruct E as (n & Hn & ->).
  do 10 (destruct n as [|n]; [apply kept_literal; [exact Logic.I|split; [discriminate|intros s' E; discriminate]|reflexivity]|]). lia.
Qed.

Example C54_round_trip_example : exchangeable ex_same ex_str ex_literal (fun q => q) ex_classes ex_drawing
  /\ exists w, ex_exchanged ex_drawing = Ok w /\ canon w = canon ex_drawing.
Proof.
  assert (X : exchangeable ex_same ex_str ex_literal (fun q => q) ex_classes ex_drawing).
  { split; [split|split; [|split; [|split; [|split]]]].
    - intros x y Hx Hy. apply ex_objects in Hx, Hy. destruct Hx as [->|[->|[->| ->]]], Hy as [->|[->|[->| ->]]]; intros E; try discriminate; auto.
    - intros x y Hx Hy. apply ex_objects in Hx, Hy. destruct Hx as [->|[->|[->| ->]]], Hy as [->|[->|[->| ->]]]; intros E; try discriminate; auto.
    - intros x y Hx Hy. apply ex_objects in Hx, Hy. destruct Hx as [->|[->|[->| ->]]], Hy as [->|[->|[->| ->]]]; intros E; try discriminate; auto.
    - intros m m' c i i' a a' Hx Hy. apply ex_objects in Hx, Hy.
      destruct Hx as [Hx|[Hx|[Hx|Hx]]], Hy as [Hy|[Hy|[Hy|Hy]]]; injection Hx; injection Hy; congruence.
    - assert (K : forall s, In s ["a"; "d"; "round"; "hello"]%string -> kept ex_str ex_literal (fun q => q) (VStr s)).
      { intros s Hs. simpl in Hs. destruct Hs as [<-|[<-|[<-|[<-|[]]]]]; apply kept_text; try reflexivity; (split; [discriminate|intros s' E; discriminate]). }
      intros x Hx. apply ex_objects in Hx. destruct Hx as [->|[->|[->| ->]]]; cbn [plain_class ex_drawing ex_circle ex_point].
      all: split; [eexists; split; [vm_compute; reflexivity|simpl; reflexivity]|].
      all: split; [repeat constructor; simpl; intuition discriminate|].
      all: split; [eexists; split; [simpl; eauto 10|first [left; reflexivity|right; apply K; simpl; auto]]|].
      all: split; [intros k Hk; simpl in Hk; intuition (subst; repeat split; try discriminate; auto)|].
      all: repeat split; try discriminate; intros s' E; discriminate.
    - intros k z Hz Nk. change (dict_of ex_drawing) with (dict_of ex_drawing) in Hz. simpl in Hz.
      destruct Hz as [E|[E|[E|[E|[E|[E|[]]]]]]]; injection E as <- <-; try congruence.
      + eapply alone_object; [vm_compute; auto|vm_compute; reflexivity|reflexivity|].
        intros c' o p w Hv So Hw. assert (p = "circle"%string) as ->.
        { vm_compute in Hv. apply Nat.eqb_eq in So. subst o. intuition congruence. }
        intros W. apply has_word_within in W; [|intros ->; simpl in Hw; intuition discriminate].
        simpl in Hw. destruct Hw as [<-|[<-|[<-|[<-|[]]]]]; vm_compute in W; discriminate.
      + apply (alone_list _ _ _ _ _ _ "Point"); [vm_compute; auto|discriminate|].
        change (members ex_same ex_drawing "Point") with (members ex_same ex_drawing "Point"). vm_compute.
        constructor; [do 3 eexists; split; reflexivity|]. constructor; [do 3 eexists; split; reflexivity|]. constructor.
      + apply alone_kept, kept_text; [split; [discriminate|intros s' E; discriminate]|reflexivity].
      + apply alone_kept, ex_kept_int. lia.
      + apply alone_kept, kept_literal; [reflexivity|split; [discriminate|intros s' E; discriminate]|reflexivity].
    - intros before c after Ec x Hx Cx Mx. vm_compute in Ec.
      destruct before as [|b [|b' before]]; try (destruct before; discriminate); injection Ec; intros; subst.
      + (* the circle *)
        apply ex_objects in Hx. destruct Hx as [->|[->|[->| ->]]]; simpl in H0; try discriminate.
        change (members ex_same ex_drawing (class_of ex_circle)) with [3]. cbv iota. intros k z Hz Nk. simpl in Hz.
        destruct Hz as [E|[E|[E|[]]]]; injection E as <- <-; try congruence.
        * eapply alone_object; [simpl; auto|vm_compute; reflexivity|reflexivity|].
          intros c' o p w Hv So Hw. assert (p = "circle.center"%string \/ p = "points.0"%string) as Hp.
          { vm_compute in Hv. apply Nat.eqb_eq in So. subst o. intuition congruence. }
          intros W. apply has_word_within in W; [|intros ->; simpl in Hw; intuition discriminate].
          simpl in Hw. destruct Hp as [-> | ->]; destruct Hw as [<-|[<-|[<-|[<-|[]]]]]; vm_compute in W; discriminate.
        * apply alone_kept, kept_float. reflexivity.
      + (* the points *)
        apply ex_objects in Hx. destruct Hx as [->|[->|[->| ->]]]; simpl in H0; try discriminate.
        all: change (members ex_same ex_drawing (class_of _)) with [1; 2]; cbv iota; intros k z Hz Nk; simpl in Hz.
        all: destruct Hz as [E|[E|[E|[]]]]; injection E as <- <-; try congruence; apply among_kept, ex_kept_int; lia. }
  split; auto. apply C54_round_trip; auto.
  - apply Nat.eqb_refl.
  - intros a b E. apply Nat.eqb_eq in E. subst. apply Nat.eqb_refl.
  - intros a b c E E'. apply Nat.eqb_eq in E, E'. subst. apply Nat.eqb_refl.
Qed.

(** Objects of a class with other attributes: their values are under the names of the
    attributes of the last object. *)
Definition ex_uneven : value :=
  VObj "m" "Drawing" 0 [("first", VObj "m" "Point" 1 [("x", VInt 1); ("name", VStr "a")]);
                        ("second", VObj "m" "Point" 2 [("y", VInt 2); ("name", VStr "b")]); ("name", VStr "d")]%string.
Theorem C53_columns_refuted : exists v wb s, sound ex_same v /\ well_named v /\ ex_written v = Ok wb
  /\ In s wb /\ title s = "Point"%string
  /\ In (VObj "m" "Point" 1 [("x", VInt 1); ("name", VStr "a")]%string) (objects v)
  /\ cell_is s 4 1 (CText "first") None
  /\ cell_is s 3 3 (CText "y") None /\ cell_is s 4 3 (CText "1") None.
Proof.
  eexists ex_uneven, _, _. split; [|split; [|split; [vm_compute; reflexivity|split; [simpl; right; left; reflexivity|]]]].
  - split; intros x y Hx Hy; simpl in Hx, Hy; destruct Hx as [<-|[<-|[<-|[]]]], Hy as [<-|[<-|[<-|[]]]]; intros E; try discriminate; auto.
  - intros x Hx. simpl in Hx. destruct Hx as [<-|[<-|[<-|[]]]]; simpl; split; try (repeat constructor; simpl; intuition discriminate); intuition discriminate.
  - vm_compute. auto 10.
Qed.

(** A line with two ends is read with the same point at both ends. *)
Definition ex_line : value :=
  VObj "m" "Line" 0 [("start", ex_point 1 1 2 "a"); ("end", ex_point 2 3 4 "b"); ("name", VStr "l")]%string.
Theorem C54_line_refuted : exists v w, sound ex_same v /\ (forall x, In x (objects v) -> plain_class ex_str ex_literal (fun q => q) ex_classes x)
  /\ (forall x k z, In x (objects v) -> In (k, z) (dict_of x) -> k <> "name"%string -> (exists m c i a, z = VObj m c i a) \/ kept ex_str ex_literal (fun q => q) z)
  /\ ex_exchanged v = Ok w
  /\ get "start" (dict_of v) <> get "end" (dict_of v) /\ get "start" (dict_of w) = get "end" (dict_of w)
  /\ canon w <> canon v.
Proof.
  eexists ex_line, _. split; [|split; [|split; [|split; [vm_compute; reflexivity|]]]].
  - split; intros x y Hx Hy; simpl in Hx, Hy; destruct Hx as [<-|[<-|[<-|[]]]], Hy as [<-|[<-|[<-|[]]]]; intros E; try discriminate; auto.
  - assert (K : forall s, In s ["a"; "b"; "l"]%string -> kept ex_str ex_literal (fun q => q) (VStr s)).
    { intros s Hs. simpl in Hs. destruct Hs as [<-|[<-|[<-|[]]]]; apply kept_text; try reflexivity; (split; [discriminate|intros s' E; discriminate]). }
    intros x Hx. simpl in Hx. destruct Hx as [<-|[<-|[<-|[]]]].
    all: split; [eexists; split; [vm_compute; reflexivity|simpl; reflexivity]|].
    all: split; [repeat constructor; simpl; intuition discriminate|].
    all: split; [eexists; split; [simpl; eauto 10|right; apply K; simpl; auto]|].
    all: split; [intros k Hk; simpl in Hk; intuition (subst; repeat split; try discriminate; auto)|].
    all: repeat split; try discriminate; intros s' E; discriminate.
  - intros x k z Hx Hz Nk. simpl in Hx. destruct Hx as [<-|[<-|[<-|[]]]]; simpl in Hz; destruct Hz as [E|[E|[E|[]]]]; injection E as <- <-; try congruence.
    1, 2: left; do 4 eexists; reflexivity.
    all: right; apply ex_kept_int; lia.
  - split; [discriminate|]. split; [reflexivity|]. vm_compute. discriminate.
Qed.

(** A text that python reads as a value is not read as a text. *)
Theorem C54_text_refuted : exists v w, ex_exchanged v = Ok w
  /\ get "x" (dict_of v) = Some (VStr "12") /\ get "x" (dict_of w) = Some (VInt 12).
Proof.
  eexists (VObj "m" "Point" 0 [("x", VStr "12"); ("y", VInt 2); ("name", VStr "a")]%string), _.
  split; [vm_compute; reflexivity|]. split; reflexivity.
Qed.

Definition ex_catalog (h : list scalar) (row : list scalar) : workbook :=
  [{| title := "points"; grid := [[text "m"; text "Point"]; map bare h; map bare row] |}].

(** A header that repeats a name after two empty cells is not refused: the last column wins. *)
Theorem C55_duplicates_refuted : exists wb o, read_catalog ex_str ex_literal ex_classes wb = Ok [("points"%string, [o])]
  /\ (exists s, In s wb /\ cell_is s 2 3 (CText "x") None /\ cell_is s 2 4 (CText "x") None /\ cell_is s 3 3 (CInt 1) None)
  /\ get "x" (dict_of o) = Some (VInt 2).
Proof.
  exists (ex_catalog [CNone; CNone; CText "x"; CText "x"; CText "y"] [CNone; CNone; CInt 1; CInt 2; CInt 3]). eexists.
  split; [vm_compute; reflexivity|]. split; [eexists; split; [simpl; auto|]; vm_compute; auto|reflexivity].
Qed.

Print Assumptions C53_columns_refuted.
Print Assumptions C54_line_refuted.
Print Assumptions C54_text_refuted.
Print Assumptions C55_duplicates_refuted.

Example C53_writes_example :
  ex_written (VObj "m" "Line" 0 [("s", VSet [ex_point 1 1 2 "a"]); ("name", VStr "l")]%string) = Err TypeError
  /\ ex_written (VObj "m" "Line" 0 [("s", VSet [VInt 1]); ("name", VStr "l")]%string) <> Err TypeError.
Proof. vm_compute. split; [reflexivity|discriminate]. Qed.

Example C53_one_row_example :
  classes_of ex_drawing = ["Circle"; "Point"]%string /\ members ex_same ex_drawing "Point" = [1; 2]
  /\ visited ex_drawing = [("Circle", 3, "circle"); ("Point", 1, "circle.center"); ("Point", 1, "points.0"); ("Point", 2, "points.1")]%string.
Proof. vm_compute. auto. Qed.

Example C54_dictionaries_example :
  ex_exchanged (VObj "m" "Line" 0 [("start", VDict [("k", ex_point 1 1 2 "a")]); ("end", VInt 1); ("name", VStr "l")]%string) = Err KeyError.
Proof. vm_compute. reflexivity. Qed.

Example C54_row_ignored_example :
  match ex_written ex_line with
  | Ok wb => linked_value wb [("Point"%string, [ex_point 1 1 2 "a"; ex_point 2 3 4 "b"])] {| content := CText "end"; link := Some ("Point"%string, 5) |}
  | Err e => Err e
  end = Ok (ex_point 1 1 2 "a").
Proof. vm_compute. reflexivity. Qed.

Example C55_catalog_example :
  read_catalog ex_str ex_literal ex_classes (ex_catalog [CText "y"; CText "x"] [CText "5"; CInt 7])
  = Ok [("points", [VObj "m" "Point" 0 [("x", VInt 7); ("y", VInt 5); ("name", VStr "")]])]%string.
Proof. vm_compute. reflexivity. Qed.

Example C55_duplicates_example :
  read_catalog ex_str ex_literal ex_classes (ex_catalog [CText "x"; CText "y"; CText "x"] [CInt 5; CInt 7; CInt 1]) = Err ValueError.
Proof. vm_compute. reflexivity. Qed.

Example C53_visited_example :
  visited (VObj "m" "Line" 0 [("ends", VTuple [ex_point 1 1 2 "a"]); ("_hidden", ex_point 2 3 4 "b"); ("name", VStr "l")])%string
  = [("Point", 1, "ends.0")]%string.
Proof. vm_compute. reflexivity. Qed.

(** The default value empty is taken for no default value: a catalog without it is refused, and
    one with the other default value is read. *)
Theorem C55_empty_refuted : exists params wb,
  In ("colour", Some (VStr "empty"))%string params
  /\ read_catalog ex_str ex_literal (fun _ => Ok params) wb = Err ValueError
  /\ exists o, read_catalog ex_str ex_literal
       (fun _ => Ok (map (fun p => if String.eqb (fst p) "colour" then (fst p, Some (VStr "full")) else p) params)) wb
       = Ok [("points"%string, [o])].
Proof.
  exists [("x", None); ("y", None); ("colour", Some (VStr "empty"))]%string, (ex_catalog [CText "y"; CText "x"] [CText "5"; CInt 7]).
  split; [simpl; auto|]. split; [vm_compute; reflexivity|]. eexists. vm_compute. reflexivity.
Qed.
Print Assumptions C55_empty_refuted.

Example C55_missing_example :
  read_catalog ex_str ex_literal ex_classes (ex_catalog [CText "y"; CText "z"] [CText "5"; CInt 7]) = Err ValueError.
Proof. vm_compute. reflexivity. Qed.
Example C55_reads_example : forall inst, read_catalog ex_str ex_literal ex_classes (ex_catalog [CText "y"; CText "x"; CNone; CNone] [CText "5"; CInt 7])
  = Ok inst -> get "points" inst = Some [VObj "m" "Point" 0 [("x", VInt 7); ("y", VInt 5); ("name", VStr "")]%string].
Proof. intros inst E. vm_compute in E. injection E as <-. reflexivity. Qed.

(** Proofs about catalogs (C55). *)
From Coq Require Import Ascii String ZArith QArith Bool Arith Lia.
From Verif Require Import Base BaseProofs TableModel TableProofs ExcelModel ExcelSpec ExcelProofs ExcelRead.
From Coq Require Import List Permutation.
Import ListNotations.
Open Scope list_scope.
Open Scope nat_scope.

Lemma scalars_refl c : scalars_eqb c c = true.
Proof. destruct c as [|[]| | |]; simpl; auto; try (apply Qeq_bool_iff; reflexivity). apply String.eqb_refl. Qed.

Lemma duplicates_spec l : forall s c, check_duplicates s l = Some c <->
  exists l1 l2, l = l1 ++ c :: l2 /\ existsb (scalars_eqb c) (s ++ l1) = true
    /\ forall m1 d m2, l1 = m1 ++ d :: m2 -> existsb (scalars_eqb d) (s ++ m1) = false.
Proof.
  induction l as [|x l IH]; intros s c; simpl.
  - split; [discriminate|]. intros (l1 & l2 & E & _). destruct l1; discriminate.
  - destruct (existsb (scalars_eqb x) s) eqn:B.
    + split.
      * intros E. injection E as <-. exists [], l. split; auto. rewrite app_nil_r. split; auto. intros [|? ?] d m2 E; discriminate.
      * intros ([|y l1] & l2 & E & Ex & N); simpl in E; injection E as <- E.
        -- auto.
        -- specialize (N [] x l1 eq_refl). rewrite app_nil_r in N. congruence.
    + rewrite IH. split.
      * intros (l1 & l2 & -> & Ex & N). exists (x :: l1), l2. split; auto. rewrite <- app_assoc in Ex. split; auto.
        intros [|y m1] d m2 E; simpl in E; injection E as <- E; [rewrite app_nil_r; auto|].
        specialize (N m1 d m2 E). rewrite <- app_assoc in N. auto.
      * intros ([|y l1] & l2 & E & Ex & N); simpl in E; injection E as <- E.
        -- rewrite app_nil_r in Ex. congruence.
        -- exists l1, l2. split; auto. rewrite <- app_assoc. split; auto. intros m1 d m2 E'. rewrite <- app_assoc.
           apply (N (x :: m1) d m2). simpl. congruence.
Qed.

Section Catalog.
Variable pystr : value -> string.
Variable literal : string -> option value.
Variable classes : string -> res (list (string * option value)).

Lemma data_last (params : list (string * option value)) k d0 : get k params = Some d0 -> forall hv d,
  get k (fold_left (fun d (av : scalar * value) =>
               match fst av with
               | CText a => match get a params with
                            | Some _ => put a (evaluated literal (snd av)) d
                            | None => d
                            end
               | _ => d
               end) hv d)
  = match find (fun av => scalar_eqb (fst av) k) (rev hv) with
    | Some av => Some (evaluated literal (snd av))
    | None => get k d
    end.
Proof.
  intros G. induction hv as [|[h x] hv IH] using rev_ind; intros d; [reflexivity|].
  rewrite fold_left_app, rev_app_distr. cbn [fold_left rev app find fst snd].
  destruct h as [| | | |a]; try apply IH. cbn [scalar_eqb]. destruct (String.eqb_spec a k) as [->|N].
  - rewrite G, get_put, String.eqb_refl. auto.
  - destruct (get a params); [rewrite get_put; destruct (String.eqb_spec a k); [congruence|]|]; apply IH.
Qed.

Lemma find_last {A} (g : nat -> A) (p : A -> bool) : forall n s,
  match find p (rev (map g (seq s n))) with
  | Some x => exists c, s <= c < s + n /\ x = g c /\ p (g c) = true /\ forall c', c < c' < s + n -> p (g c') = false
  | None => forall c', s <= c' < s + n -> p (g c') = false
  end.
Proof.
  induction n as [|n IH]; intros s; [simpl; lia|]. rewrite seq_S, map_app, rev_app_distr. cbn [map rev app find].
  destruct (p (g (s + n))) eqn:E.
  - exists (s + n). split; [lia|]. split; auto. split; auto. lia.
  - specialize (IH s). destruct (find p (rev (map g (seq s n)))) as [x|].
    + destruct IH as (c & H1 & H2 & H3 & H4). exists c. split; [lia|]. split; auto. split; auto. intros c' Hc.
      destruct (Nat.eq_dec c' (s + n)) as [->|]; auto. apply H4. lia.
    + intros c' Hc. destruct (Nat.eq_dec c' (s + n)) as [->|]; auto. apply IH. lia.
Qed.

Lemma combine_map {X A B} (f : X -> A) (g : X -> B) l : combine (map f l) (map g l) = map (fun x => (f x, g x)) l.
Proof. induction l as [|x l IH]; simpl; congruence. Qed.

Lemma cell_out s r col : width s < col -> cell_at s r col = blank.
Proof.
  intros H. unfold cell_at. destruct (nth_error (grid s) (r - 1)) as [row|] eqn:E.
  - rewrite (nth_error_nth _ _ _ E). apply nth_overflow. pose proof (width_row s row (nth_error_In _ _ E)). lia.
  - rewrite (nth_overflow (grid s)) by (apply nth_error_None; auto). destruct (col - 1); auto.
Qed.

Lemma scalar_eqb_spec c k : scalar_eqb c k = true <-> c = CText k.
Proof. destruct c; simpl; try (split; discriminate). rewrite String.eqb_eq. split; congruence. Qed.

Lemma get_data_under params s r k d0 : get k params = Some d0 ->
  exists c, under s r k c /\
  get k (get_data literal (map (fun c => scalar_value (content c)) (map (fun c => bare (content c)) (row_from s r 1)))
                  (map content (row_from s 2 1)) params)
  = option_map (fun cl => evaluated literal (scalar_value (content cl))) c.
Proof.
  intros G. unfold get_data, row_from. rewrite !map_map, combine_map, (data_last params k d0 G).
  set (g := fun col => (content (cell_at s 2 col), scalar_value (content (bare (content (cell_at s r col)))))).
  pose proof (find_last g (fun av => scalar_eqb (fst av) k) (width s + 1 - 1) 1) as F.
  assert (O : forall col, 1 <= col -> ~ 1 <= col < 1 + (width s + 1 - 1) -> content (cell_at s 2 col) <> CText k).
  { intros col H1 H2. rewrite cell_out by lia. discriminate. }
  assert (N : forall col, scalar_eqb (fst (g col)) k = false -> content (cell_at s 2 col) <> CText k).
  { intros col Hc E. simpl in Hc. rewrite E in Hc. simpl in Hc. rewrite String.eqb_refl in Hc. discriminate. }
  destruct (find (fun av => scalar_eqb (fst av) k) (rev (map g (seq 1 (width s + 1 - 1))))) as [x|] eqn:E.
  - destruct F as (col & H1 & -> & H3 & H4). exists (Some (cell_at s r col)). split; auto. exists col.
    split; [lia|]. split; auto. split; [apply scalar_eqb_spec; exact H3|]. intros col' Hc.
    destruct (le_lt_dec (1 + (width s + 1 - 1)) col'); [apply O; lia|]. apply N. apply H4. lia.
  - exists None. split; auto. intros col Hc. destruct (le_lt_dec (1 + (width s + 1 - 1)) col); [apply O; lia|].
    apply N. apply F. lia.
Qed.


Lemma mapM_get (params : list (string * option value)) (D : list (string * value)) k d : forall a,
  mapM (fun p : string * option value => match get (fst p) D, snd p with
                           | Some x, _ => Ok (fst p, x)
                           | None, Some x => Ok (fst p, x)
                           | None, None => Err TypeError
                           end) params = Ok a ->
  map fst a = map fst params /\
  (get k params = Some d -> match get k D with
                            | Some x => get k a = Some x
                            | None => exists x, d = Some x /\ get k a = Some x
                            end).
Proof.
  induction params as [|[k' d'] params IH]; intros a E; cbn [mapM fst snd] in E.
  - injection E as <-. split; auto. discriminate.
  - destruct (match get k' D with Some x => Ok (k', x) | None => match d' with Some x => Ok (k', x) | None => Err TypeError end end) as [y|] eqn:Ey; [|discriminate].
    cbn [bind] in E. destruct (mapM _ params) as [a'|]; [|discriminate]. cbn [bind] in E. injection E as <-.
    destruct (IH a' eq_refl) as [K G]. assert (Fy : fst y = k') by (destruct (get k' D); [|destruct d'; [|discriminate]]; injection Ey as <-; auto).
    destruct y as [k'' x]. simpl in Fy. subst k''. split; [simpl; congruence|].
    simpl. destruct (String.eqb_spec k' k) as [->|N].
    + intros Ed. injection Ed as ->. destruct (get k D) as [z|]; [injection Ey as ->; auto|].
      destruct d as [z|]; [|discriminate]. injection Ey as ->. eauto.
    + auto.
Qed.

Lemma created params s r m c o data :
  classes (m ++ "." ++ c)%string = Ok params ->
  create_object literal classes {| module_name := m; class_name := c; header := map content (row_from s 2 1); rows_of := data |}
    (map (fun c => scalar_value (content c)) (map (fun c => bare (content c)) (row_from s r 1))) = Ok o ->
  made literal params s r m c o.
Proof.
  intros Ep E. unfold create_object, full_name in E. cbn [module_name class_name header] in E. rewrite Ep in E. cbn [bind] in E.
  set (D := get_data _ _ _ params) in E. unfold init in E. cbv zeta in E.
  destruct (mapM _ params) as [a|] eqn:M in E; [|discriminate]. cbn [bind module_name class_name] in E. injection E as <-.
  set (a0 := match get "name" a with Some _ => a | None => a ++ [("name"%string, VStr "")] end).
  set (a1 := match get "name" a0 with Some n => if falsy n then put "name" (VStr "") a0 else a0 | None => a0 end).
  assert (Eo : named (VObj m c 0 a0) = VObj m c 0 a1).
  { unfold named, a1. destruct (get "name" a0) as [n|]; auto. destruct (falsy n); auto. }
  exists a1. split; [exact Eo|].
  assert (G0 : forall k x, get k a = Some x -> get k a0 = Some x).
  { intros k x Gx. unfold a0. destruct (get "name" a); auto. clear - Gx. induction a as [|[k' y] a IH]; simpl in *; [discriminate|].
    destruct (String.eqb k' k); auto. }
  assert (G1 : forall k x, get k a = Some x -> get k a1 = Some (if String.eqb k "name" && falsy x then VStr "" else x)).
  { intros k x Gx. apply G0 in Gx. unfold a1. destruct (String.eqb_spec k "name") as [->|N].
    - rewrite Gx. simpl andb. destruct (falsy x); auto. rewrite get_put, String.eqb_refl. auto.
    - simpl andb. destruct (get "name" a0) as [n|]; auto. destruct (falsy n); auto. rewrite get_put.
      destruct (String.eqb_spec "name" k); [congruence|auto]. }
  split.
  - intros k d Gk. destruct (get_data_under params s r k d Gk) as (cl & U & Gd). fold D in Gd.
    pose proof (proj2 (mapM_get params D k d a M) Gk) as Ga. rewrite Gd in Ga. exists cl.
    destruct cl as [cl|]; simpl in Ga.
    + exists (evaluated literal (scalar_value (content cl))). split; [exact U|]. split; [destruct (content cl); reflexivity|]. apply G1. auto.
    + destruct Ga as (x & -> & Gx). exists x. split; [exact U|]. split; auto.
  - intros N. assert (get "name" a = None).
    { apply get_none_iff. rewrite (proj1 (mapM_get params D "name" None a M)). apply get_none_iff. auto. }
    assert (get "name" a0 = Some (VStr "")) as Hn.
    { unfold a0. rewrite H. clear - H. induction a as [|[k y] a IH]; [reflexivity|]. cbn [get app] in *.
      destruct (String.eqb k "name"); [discriminate|]. auto. }
    unfold a1. rewrite Hn. simpl falsy. cbv iota. rewrite get_put, String.eqb_refl. auto.
Qed.

Lemma stack_get (f : extract -> res (list value)) : forall l inst inst',
  foldM (fun inst ke => let* os := f (snd ke) in Ok (put (fst ke) os inst)) l inst = Ok inst' -> NoDup (map fst l) ->
  (forall k e, In (k, e) l -> exists os, f e = Ok os /\ get k inst' = Some os)
  /\ (forall k, ~ In k (map fst l) -> get k inst' = get k inst).
Proof.
  induction l as [|[k e] l IH]; intros inst inst' E N; cbn [foldM fst snd] in E.
  - injection E as ->. split; auto. intros k e [].
  - destruct (f e) as [os|] eqn:Ef; [|discriminate]. cbn [bind] in E. inversion N as [|? ? N1 N2]. subst.
    destruct (IH _ _ E N2) as [H1 H2]. split.
    + intros k' e' [Ek|H]; [injection Ek as <- <-|apply H1; auto]. exists os. split; auto. rewrite H2 by auto.
      rewrite get_put, String.eqb_refl. auto.
    + intros k' Hk. rewrite H2 by (intros H; apply Hk; simpl; auto). rewrite get_put.
      destruct (String.eqb_spec k k'); [|auto]. subst. exfalso. apply Hk. simpl. auto.
Qed.

Lemma catalog_spec wb inst s m c : read_catalog pystr literal classes wb = Ok inst -> NoDup (map title wb) -> In s wb ->
  content (cell_at s 1 1) = CText m -> content (cell_at s 1 2) = CText c ->
  exists params os, classes (m ++ "." ++ c)%string = Ok params /\ get (title s) inst = Some os /\ List.length os = height s - 2
    /\ forall n o, nth_error os n = Some o -> made literal params s (3 + n) m c o.
Proof.
  intros E N Hs Em Ec. unfold read_catalog in E. destruct (mapM (extract_catalog_sheet pystr classes) wb) as [es|] eqn:Ee; [|discriminate].
  cbn [bind] in E. pose proof (mapM_forall _ _ _ Ee) as F.
  assert (Tt : map fst es = map title wb).
  { clear - F. induction F as [|s [k e] wb es H F IH]; simpl; auto. f_equal; auto. unfold extract_catalog_sheet in H.
    destruct (match check_duplicate_attributes _ with Some _ => _ | None => _ end); [|discriminate]. cbn [bind] in H.
    destruct (extract_of _ _ _ _ _) as [e'|]; [|discriminate]. injection H. auto. }
  destruct (forall2_in_l _ _ _ F s Hs) as ([k e] & He & Hx). unfold extract_catalog_sheet in Hx.
  destruct (match check_duplicate_attributes _ with Some _ => _ | None => _ end); [|discriminate]. cbn [bind] in Hx.
  rewrite Em, Ec in Hx. change (text_of pystr (CText m)) with m in Hx. change (text_of pystr (CText c)) with c in Hx.
  unfold extract_of in Hx. destruct (missed_attribute classes _) as [|] eqn:Ms; [|discriminate]. cbn [bind] in Hx. injection Hx as <- <-.
  unfold missed_attribute, full_name in Ms. cbn [module_name class_name] in Ms.
  destruct (classes (m ++ "." ++ c)%string) as [params|] eqn:Ep; [|discriminate]. clear Ms.
  destruct (stack_get (fun e => mapM (fun row => create_object literal classes e (map (fun c => scalar_value (content c)) row)) (rows_of e))
              (rev es) [] inst) as [G _].
  - exact E.
  - rewrite map_rev, Tt. apply NoDup_rev. auto.
  - destruct (G _ _ (proj1 (in_rev _ _) He)) as (os & Eo & Gs). cbn [rows_of] in Eo.
    exists params, os. split; auto. split; auto. apply mapM_forall in Eo. split.
    + rewrite <- (forall2_length _ _ _ Eo), map_length, seq_length. auto.
    + intros n o Hn.
      assert (Fl : forall A B (P : A -> B -> Prop) l l', Forall2 P l l' -> forall n y, nth_error l' n = Some y -> exists x, nth_error l n = Some x /\ P x y).
      { clear. intros A B P l l' F. induction F as [|x y l l' H F IH]; intros [|n] z Hz; try discriminate; simpl in *; eauto.
        injection Hz as <-. eauto. }
      destruct (Fl _ _ _ _ _ Eo n o Hn) as (row & Hrow & Hc). rewrite nth_error_map in Hrow.
      destruct (nth_error (seq 3 (height s - 2)) n) as [r|] eqn:Hr; [|discriminate]. injection Hrow as <-.
      assert (r = 3 + n) as ->.
      { pose proof (nth_error_nth _ _ 0 Hr) as X. rewrite seq_nth in X; [auto|]. 
        assert (nth_error (seq 3 (height s - 2)) n <> None) by congruence. apply nth_error_Some in H. rewrite seq_length in H. auto. }
      eapply created; eauto.
Qed.

Lemma header_text s k : in_header k (map content (row_from s 2 1)) = true <-> exists col, 1 <= col /\ content (cell_at s 2 col) = CText k.
Proof.
  unfold in_header, row_from. rewrite existsb_exists. split.
  - intros (c & Hc & E). apply scalar_eqb_spec in E. subst c. rewrite map_map in Hc. apply in_map_iff in Hc.
    destruct Hc as (col & E & H). apply in_seq in H. exists col. split; [lia|auto].
  - intros (col & H & E). exists (CText k). split; [|apply scalar_eqb_spec; auto]. rewrite map_map. apply in_map_iff. exists col.
    split; auto. apply in_seq. destruct (le_lt_dec col (width s)); [lia|]. rewrite cell_out in E by auto. discriminate.
Qed.

Lemma catalog_missing wb s m c params k d :
  In s wb -> content (cell_at s 1 1) = CText m -> content (cell_at s 1 2) = CText c ->
  classes (m ++ "." ++ c)%string = Ok params -> In (k, d) params -> no_default d = true ->
  (forall col, 1 <= col -> content (cell_at s 2 col) <> CText k) -> width s <> List.length params ->
  exists e, read_catalog pystr literal classes wb = Err e.
Proof.
  intros Hs Em Ec Ep Hk Hd Hh W. unfold read_catalog.
  destruct (mapM (extract_catalog_sheet pystr classes) wb) as [es|e] eqn:Ee; [|exists e; reflexivity]. exfalso.
  destruct (forall2_in_l _ _ _ (mapM_forall _ _ _ Ee) s Hs) as (ke & _ & Hx). unfold extract_catalog_sheet in Hx.
  destruct (match check_duplicate_attributes _ with Some _ => _ | None => _ end); [|discriminate]. cbn [bind] in Hx.
  rewrite Em, Ec in Hx. change (text_of pystr (CText m)) with m in Hx. change (text_of pystr (CText c)) with c in Hx.
  unfold extract_of, missed_attribute, full_name in Hx. cbn [module_name class_name header] in Hx. rewrite Ep in Hx. cbn [bind] in Hx.
  destruct (Nat.eqb_spec (List.length (map content (row_from s 2 1))) (List.length params)) as [E|_].
  { unfold row_from in E. rewrite !map_length, seq_length in E. apply W. rewrite <- E. apply eq_sym, Nat.add_sub. }
  assert (X : existsb (fun p : string * option value => negb (in_header (fst p) (map content (row_from s 2 1))) && no_default (snd p)) params = true).
  { apply existsb_exists. exists (k, d). split; auto. cbn [fst snd]. rewrite Hd, andb_true_r. apply negb_true_iff.
    apply not_true_is_false. intros T. apply header_text in T. destruct T as (col & H1 & H2). apply (Hh col); auto. }
  rewrite X in Hx. discriminate.
Qed.

Lemma get_data_key s r k params d : get k params = Some d ->
  (exists col, 1 <= col /\ content (cell_at s 2 col) = CText k) ->
  get k (get_data literal (map (fun c => scalar_value (content c)) (map (fun c => bare (content c)) (row_from s r 1)))
                  (map content (row_from s 2 1)) params) <> None.
Proof.
  intros G (col & H1 & H2) E. destruct (get_data_under params s r k d G) as ([cl|] & U & X).
  - rewrite X in E. discriminate.
  - apply (U col); auto.
Qed.

Lemma get_in_first k (d0 : option value) params : In (k, d0) params -> exists d, get k params = Some d.
Proof.
  induction params as [|[k' d'] params IH]; simpl; [tauto|]. intros [E|H].
  - injection E as -> ->. rewrite String.eqb_refl. eauto.
  - destruct (String.eqb k' k); eauto.
Qed.

Lemma foldM_ok {A B} (f : B -> A -> res B) : forall l b, (forall b x, In x l -> exists b', f b x = Ok b') -> exists b', foldM f l b = Ok b'.
Proof.
  induction l as [|x l IH]; intros b H; simpl; eauto. destruct (H b x) as [b' E]; simpl; auto. rewrite E. cbn [bind]. apply IH.
  intros b0 y Hy. apply H. simpl. auto.
Qed.

Lemma mapM_ok {A B} (f : A -> res B) l : (forall x, In x l -> exists y, f x = Ok y) -> exists ys, mapM f l = Ok ys.
Proof.
  induction l as [|x l IH]; intros H; cbn [mapM]; eauto. destruct (H x) as [y E]; simpl; auto. rewrite E. cbn [bind].
  destruct IH as [ys ->]; [intros; apply H; simpl; auto|]. cbn [bind]. eauto.
Qed.

Lemma header_split s l1 c l2 : map content (row_from s 2 1) = l1 ++ c :: l2 -> existsb (scalars_eqb c) l1 = true ->
  exists col col', 1 <= col < col' /\ scalars_eqb (content (cell_at s 2 col')) (content (cell_at s 2 col)) = true /\ c = content (cell_at s 2 col').
Proof.
  intros E X. apply existsb_exists in X. destruct X as (d & Hd & Ed). apply In_nth_error in Hd. destruct Hd as [n Hn].
  assert (N : forall n c, nth_error (map content (row_from s 2 1)) n = Some c -> c = content (cell_at s 2 (S n))).
  { clear. intros n c H. unfold row_from in H. rewrite map_map, nth_error_map in H.
    destruct (nth_error (seq 1 (width s + 1 - 1)) n) as [r|] eqn:Hr; [|discriminate]. simpl in H. injection H as <-.
    assert (L : n < List.length (seq 1 (width s + 1 - 1))) by (apply nth_error_Some; congruence). rewrite seq_length in L.
    pose proof (nth_error_nth _ _ 0 Hr) as Y. rewrite seq_nth in Y by auto. simpl in Y. subst r. reflexivity. }
  assert (L : n < List.length l1) by (apply nth_error_Some; congruence).
  assert (E1 : c = content (cell_at s 2 (S (List.length l1)))).
  { apply N. rewrite E, nth_error_app2, Nat.sub_diag by lia. reflexivity. }
  assert (E2 : d = content (cell_at s 2 (S n))).
  { apply N. rewrite E, nth_error_app1 by auto. auto. }
  exists (S n), (S (List.length l1)). split; [lia|]. subst. auto.
Qed.

Lemma catalog_reads wb :
  (forall s, In s wb -> exists m c params,
     content (cell_at s 1 1) = CText m /\ content (cell_at s 1 2) = CText c /\ classes (m ++ "." ++ c)%string = Ok params
     /\ (forall col col', 1 <= col < col' -> match content (cell_at s 2 col), content (cell_at s 2 col') with
                                             | CText k, CText k' => k <> k' \/ k = ""%string
                                             | CText _, CNone | CNone, CText _ | CNone, CNone => True
                                             | _, _ => False
                                             end)
     /\ forall k d, In (k, d) params -> (forall col, 1 <= col -> content (cell_at s 2 col) <> CText k) ->
          exists x, d = Some x /\ x <> VStr "empty") ->
  exists inst, read_catalog pystr literal classes wb = Ok inst.
Proof.
  intros H. unfold read_catalog.
  assert (X : forall s, In s wb -> exists e, extract_catalog_sheet pystr classes s = Ok (title s, e)
    /\ forall inst, exists inst', process_simple_sheet literal classes inst (title s) e = Ok inst').
  { intros s Hs. destruct (H s Hs) as (m & c & params & Em & Ec & Ep & Hd & Hm). unfold extract_catalog_sheet.
    assert (D : match check_duplicate_attributes (map content (row_from s 2 1)) with
            | Some c => if falsy (scalar_value c) then Ok tt else Err ValueError
            | None => Ok tt
            end = Ok tt).
    { destruct (check_duplicate_attributes (map content (row_from s 2 1))) as [sc|] eqn:Dc; auto.
      apply duplicates_spec in Dc. destruct Dc as (l1 & l2 & El & Ed & _). simpl in Ed.
      destruct (header_split s l1 sc l2 El Ed) as (col & col' & Hc & Es & ->). specialize (Hd col col' Hc).
      destruct (content (cell_at s 2 col)) as [| | | |k] eqn:E1, (content (cell_at s 2 col')) as [| | | |k'] eqn:E2;
        try contradiction; simpl in Es; try discriminate; auto.
      apply String.eqb_eq in Es. subst k'. destruct Hd as [Hd| ->]; [congruence|]. reflexivity. }
    rewrite D. cbn [bind]. rewrite Em, Ec. change (text_of pystr (CText m)) with m. change (text_of pystr (CText c)) with c.
    assert (Have : forall k d, In (k, d) params -> no_default d = true -> in_header k (map content (row_from s 2 1)) = true).
    { intros k d Hk Hn. apply not_false_is_true. intros F.
      destruct (Hm k d Hk) as (x & -> & Hx).
      - intros col Hc E. rewrite (proj2 (header_text s k)) in F by eauto. discriminate.
      - destruct x; simpl in Hn; try discriminate. apply String.eqb_eq in Hn. congruence. }
    unfold extract_of, missed_attribute, full_name. cbn [module_name class_name header]. rewrite Ep. cbn [bind].
    assert (Ms : (if List.length (map content (row_from s 2 1)) =? List.length params then Ok tt
       else if existsb (fun p : string * option value => negb (in_header (fst p) (map content (row_from s 2 1))) && no_default (snd p)) params
            then Err ValueError else Ok tt) = Ok tt).
    { destruct (_ =? _); auto. match goal with |- context [existsb ?f params] => assert (existsb f params = false) as -> end; auto.
      apply not_true_is_false. intros T. apply existsb_exists in T. destruct T as ([k d] & Hk & T). cbn [fst snd] in T.
      apply andb_true_iff in T. destruct T as [T1 T2]. rewrite (Have k d Hk T2) in T1. discriminate. }
    rewrite Ms. cbn [bind]. eexists. split; [reflexivity|]. intros inst. unfold process_simple_sheet. cbn [rows_of].
    match goal with |- context [mapM ?f ?l] => destruct (mapM_ok f l) as [os ->]; [|cbn [bind]; eauto] end.
    intros row Hrow. apply in_map_iff in Hrow. destruct Hrow as (r & <- & _). unfold create_object, full_name. cbn [module_name class_name header].
    rewrite Ep. cbn [bind]. unfold init.
    match goal with |- context [mapM ?f params] => destruct (mapM_ok f params) as [a ->]; [|cbn [bind]; eauto] end.
    intros [k d] Hk. cbn [fst snd]. match goal with |- context [get k ?D] => destruct (get k D) as [x|] eqn:Gx; [eauto|] end.
    destruct d as [x|]; [eauto|]. exfalso. pose proof (Have k None Hk eq_refl) as T. apply header_text in T.
    destruct (get_in_first k None params Hk) as [d Gd]. exact (get_data_key s r k params d Gd T Gx). }
  destruct (mapM_ok (extract_catalog_sheet pystr classes) wb) as [es Ee].
  { intros s Hs. destruct (X s Hs) as (e & -> & _). eauto. }
  rewrite Ee. cbn [bind]. apply foldM_ok. intros inst [t e] He. apply in_rev in He. cbn [fst snd].
  destruct (forall2_in_r _ _ _ (mapM_forall _ _ _ Ee) _ He) as (s & Hs & Es). destruct (X s Hs) as (e' & Es' & P).
  rewrite Es' in Es. injection Es as <- <-. apply P.
Qed.

(** reading fails on a header that repeats a name, unless an empty cell is repeated before *)
Lemma catalog_duplicate wb s c l1 l2 : In s wb ->
  map content (row_from s 2 1) = l1 ++ c :: l2 -> existsb (scalars_eqb c) l1 = true ->
  (forall m1 d m2, l1 = m1 ++ d :: m2 -> existsb (scalars_eqb d) m1 = false) -> falsy (scalar_value c) = false ->
  exists e, read_catalog pystr literal classes wb = Err e.
Proof.
  intros Hs Eh Ex N Fc. unfold read_catalog.
  destruct (mapM (extract_catalog_sheet pystr classes) wb) as [es|e] eqn:Ee; [|exists e; reflexivity]. exfalso.
  destruct (forall2_in_l _ _ _ (mapM_forall _ _ _ Ee) s Hs) as (ke & _ & Hx). unfold extract_catalog_sheet in Hx.
  rewrite (proj2 (duplicates_spec _ [] c)) in Hx; [rewrite Fc in Hx; discriminate|]. exists l1, l2. auto.
Qed.

Lemma first_duplicate l : (exists m1 c m2, l = m1 ++ c :: m2 /\ existsb (scalars_eqb c) m1 = true) ->
  exists l1 c l2, l = l1 ++ c :: l2 /\ existsb (scalars_eqb c) l1 = true
    /\ forall m1 d m2, l1 = m1 ++ d :: m2 -> existsb (scalars_eqb d) m1 = false.
Proof.
  intros (m1 & c & m2 & -> & E).
  destruct (check_duplicates [] (m1 ++ c :: m2)) as [d|] eqn:D.
  - apply duplicates_spec in D. destruct D as (l1 & l2 & El & Ed & N). exists l1, d, l2. auto.
  - exfalso. assert (G : forall l s, check_duplicates s l = None -> forall x, In x l -> forall l1 l2, l = l1 ++ x :: l2 -> existsb (scalars_eqb x) (s ++ l1) = false).
    { clear. induction l as [|y l IH]; intros s D x Hx l1 l2 El; [destruct Hx|]. simpl in D.
      destruct (existsb (scalars_eqb y) s) eqn:B; [discriminate|]. destruct l1 as [|z l1]; simpl in El; injection El as <- El.
      - subst. rewrite app_nil_r. auto.
      - assert (Hl : In x l) by (rewrite El; apply in_app_iff; simpl; auto).
        specialize (IH _ D x Hl l1 l2 El). rewrite <- app_assoc in IH. exact IH. }
    assert (Hc : In c (m1 ++ c :: m2)) by (apply in_app_iff; simpl; auto).
    pose proof (G _ _ D c Hc m1 m2 eq_refl) as X. simpl in X. congruence.
Qed.

Lemma duplicate_refused wb s k col col' :
  In s wb -> 1 <= col < col' -> k <> ""%string ->
  content (cell_at s 2 col) = CText k -> content (cell_at s 2 col') = CText k ->
  (forall col1 col2, 1 <= col1 < col2 -> col2 < col' -> content (cell_at s 2 col1) = CNone -> content (cell_at s 2 col2) <> CNone) ->
  (forall col1 sc, 1 <= col1 < col' -> content (cell_at s 2 col1) = sc -> sc = CNone \/ exists t, sc = CText t /\ t <> ""%string) ->
  exists e, read_catalog pystr literal classes wb = Err e.
Proof.
  intros Hs Hc Nk E1 E2 Hn Ht.
  set (h := fun col => content (cell_at s 2 col)).
  assert (Wd : col' <= width s).
  { destruct (le_lt_dec col' (width s)); auto. rewrite cell_out in E2 by auto. discriminate. }
  assert (Er : map content (row_from s 2 1) = map h (seq 1 (width s))).
  { unfold row_from. rewrite map_map. unfold h. f_equal. f_equal. lia. }
  assert (Sp : forall n, 1 <= n <= width s -> map h (seq 1 (width s)) = map h (seq 1 (n - 1)) ++ h n :: map h (seq (S n) (width s - n))).
  { intros n H. replace (width s) with ((n - 1) + S (width s - n)) by lia. rewrite seq_app, map_app. simpl seq.
    replace (S (n - 1)) with n by lia. simpl. do 4 f_equal; lia. }
  assert (Dup : exists l1 c l2, map content (row_from s 2 1) = l1 ++ c :: l2 /\ existsb (scalars_eqb c) l1 = true
    /\ forall m1 d m2, l1 = m1 ++ d :: m2 -> existsb (scalars_eqb d) m1 = false).
  { apply first_duplicate. rewrite Er, (Sp col') by lia. do 3 eexists. split; [reflexivity|]. apply existsb_exists. exists (h col).
    split; [apply in_map; apply in_seq; lia|]. unfold h. rewrite E1, E2. apply scalars_refl. }
  destruct Dup as (l1 & c & l2 & El & Ec & N).
  apply (catalog_duplicate wb s c l1 l2); auto.
  set (n := S (List.length l1)).
  assert (Ln : n <= width s).
  { unfold n. assert (X : List.length (map h (seq 1 (width s))) = List.length (l1 ++ c :: l2)) by (rewrite <- El; congruence).
    rewrite map_length, seq_length, app_length in X. simpl in X. lia. }
  assert (Lc : l1 = map h (seq 1 (n - 1)) /\ c = h n).
  { rewrite Er, (Sp n) in El by (unfold n; lia).
    assert (L : List.length (map h (seq 1 (n - 1))) = List.length l1) by (rewrite map_length, seq_length; unfold n; lia).
    apply app_eq_app in El. destruct El as (x & [[X1 X2]|[X1 X2]]).
    - assert (x = []) as -> by (apply length_zero_iff_nil; rewrite X1, app_length in L; lia). simpl in X2. rewrite app_nil_r in X1. injection X2 as ->. auto.
    - assert (x = []) as -> by (apply length_zero_iff_nil; rewrite X1, app_length in L; lia). simpl in X2. rewrite app_nil_r in X1. injection X2 as ->. auto. }
  destruct Lc as [L1 Ln'].
  assert (Dn : exists q, 1 <= q < n /\ scalars_eqb (h n) (h q) = true).
  { rewrite Ln', L1 in Ec. apply existsb_exists in Ec. destruct Ec as (y & Hy & Ey). apply in_map_iff in Hy.
    destruct Hy as (q & <- & Hq). apply in_seq in Hq. exists q. split; [unfold n in *; lia|auto]. }
  destruct Dn as (q & Hq & Eq).
  assert (Nc : n <= col').
  { destruct (le_lt_dec n col'); auto. exfalso.
    assert (X : existsb (scalars_eqb (h col')) (map h (seq 1 (col' - 1))) = false).
    { apply (N _ (h col') (map h (seq (S col') (n - 1 - col')))). rewrite L1.
      replace (n - 1) with ((col' - 1) + S (n - 1 - col')) at 1 by lia. rewrite seq_app, map_app. simpl seq.
      replace (S (col' - 1)) with col' by lia. auto. }
    assert (existsb (scalars_eqb (h col')) (map h (seq 1 (col' - 1))) = true); [|congruence].
    apply existsb_exists. exists (h col). split; [apply in_map; apply in_seq; lia|]. unfold h. rewrite E1, E2. apply scalars_refl. }
  rewrite Ln'. destruct (Nat.eq_dec n col') as [->|Nn].
  - unfold h. rewrite E2. simpl. destruct (String.eqb_spec k ""); [congruence|auto].
  - destruct (Ht n (h n)) as [X|(t & X & Nt)]; [lia|auto| |].
    + exfalso. rewrite X in Eq. assert (h q = CNone) by (destruct (h q) as [| | | |]; simpl in Eq; try discriminate; auto).
      apply (Hn q n); auto. lia.
    + rewrite X. simpl. destruct (String.eqb_spec t ""); [congruence|auto].
Qed.
End Catalog.

(** An object with a dictionary, not empty, is never read. *)
Lemma dictionary_fails same pystr literal round6 classes m c i a k d :
  In (k, VDict d) a -> d <> [] -> (forall k', k <> String "_" k') -> k <> "name"%string ->
  exists e, exchanged same pystr literal round6 classes (VObj m c i a) = Err e.
Proof.
  intros Hk Nd Pk Nk. unfold exchanged.
  destruct (written same pystr round6 (VObj m c i a)) as [wb|e] eqn:W; [|exists e; reflexivity]. cbn [bind].
  unfold written in W. set (v := VObj m c i a) in *. set (rows := object_to_sheet_row same (paths_of same v)) in *.
  destruct (main_sheet same pystr round6 rows m c a) as [main|] eqn:Em; [|discriminate]. cbn [bind] in W.
  destruct (mapM _ (paths_of same v)) as [others|]; [|discriminate]. cbn [bind] in W. injection W as <-.
  unfold main_sheet in Em. destruct (of_option _ _); [|discriminate]. cbn [bind] in Em. destruct (name_cell a) as [nc|] eqn:En; [|discriminate].
  cbn [bind] in Em. destruct (object_row same pystr round6 rows a "") as [row|] eqn:Er; [|discriminate]. cbn [bind] in Em. injection Em as <-.
  unfold object_row in Er. rewrite En in Er. cbn [bind] in Er.
  destruct (mapM _ (columns a)) as [cs|] eqn:Ec; [|discriminate]. cbn [bind] in Er. injection Er as <-.
  apply mapM_forall in Ec. destruct (forall2_in_l _ _ _ Ec (k, VDict d)) as (cl & Hcl & Ecl); [apply columns_in; rewrite public_iff; auto|].
  cbn [snd] in Ecl. destruct d as [|[k' y] d]; [congruence|]. injection Ecl as <-.
  set (cell := {| content := CText ("Dict of " ++ nat_str (List.length ((k', y) :: d)) ++ " items"); link := Some (type_name y, 2) |}) in *.
  set (main := {| title := _; grid := _ |}). cbn [map]. set (wb := stored_sheet main :: map stored_sheet others).
  unfold read_workbook. destruct (mapM (extract_sheet pystr classes) wb) as [es|e] eqn:Ee; [|exists e; reflexivity]. cbn [bind].
  assert (Hw : forall n, has_word "Dict" ("Dict of " ++ nat_str n ++ " items") = true).
  { intros n. apply has_word_within; [discriminate|]. exists ""%string, (" of " ++ nat_str n ++ " items")%string. reflexivity. }
  destruct es as [|[key e] es]; [exists IndexError; reflexivity|].
  assert (Hrow : exists row, hd_error (rows_of e) = Some row /\ In (stored cell) row).
  { unfold wb in Ee. cbn [mapM] in Ee. destruct (extract_sheet pystr classes (stored_sheet main)) as [[key' e']|] eqn:Es; [|discriminate]. cbn [bind] in Ee.
    destruct (mapM (extract_sheet pystr classes) (map stored_sheet others)); [|discriminate]. cbn [bind] in Ee. injection Ee as <- <- _.
    unfold extract_sheet, extract_of in Es. destruct (missed_attribute classes _); [|discriminate]. cbn [bind] in Es. injection Es as _ <-.
    cbn [rows_of]. exists (row_from (stored_sheet main) 4 2). split; [reflexivity|].
    rewrite (row_from_2 (stored_sheet main) 3 (stored (text "")) (map stored (nc :: cs))) by reflexivity.
    apply in_app_iff. left. apply in_map. simpl. auto. }
  destruct Hrow as (row & Hr & Hi).
  destruct (foldM (process_sheet pystr literal classes wb) (rev es) []) as [inst|e']; [|exists e'; reflexivity]. cbn [bind].
  unfold process_single_row. rewrite Hr. cbn [of_option bind].
  assert (Hl : exists e', linked_value wb inst (stored cell) = Err e').
  { unfold linked_value, stored, cell. cbn [link content]. unfold get_location. cbn [fst].
    destruct (existsb _ wb); [|exists ValueError; reflexivity]. cbn [bind fst].
    destruct (get (type_name y) inst); [|exists KeyError; reflexivity]. cbn [of_option bind]. unfold update_attribute_values.
    cbn [content]. rewrite stored_text; [|split; [discriminate|intros s' E; cbn in E; discriminate]]. rewrite Hw. exists KeyError. reflexivity. }
  destruct Hl as [e' Hl].
  destruct (mapM (linked_value wb inst) row) as [vs|e''] eqn:Ev; [|exists e''; reflexivity].
  destruct (forall2_in_l _ _ _ (mapM_forall _ _ _ Ev) _ Hi) as (x & _ & Ex). congruence.
Qed.

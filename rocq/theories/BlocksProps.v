(** C28 and C44: what the blocks of a workflow compute. *)
From Coq Require Import ZArith Lia Arith String Ascii List.
From Verif Require Import Base BaseProofs BlocksModel BlocksSpec BlocksProofs.
Import ListNotations.
Open Scope string_scope.
Open Scope list_scope.
Open Scope nat_scope.

(** ** Sequence *)

Theorem C28_sequence : forall values inputs, is_dict values ->
  (forall vs, bound values inputs vs -> sequence_evaluate inputs values = Ok [VList vs])
  /\ (forall x, In x inputs -> ~ In x (map fst values) ->
      sequence_evaluate inputs values = Err KeyError).
Proof.
  intros values inputs Hd. unfold sequence_evaluate. split.
  - intros vs B. apply (bound_mapM _ _ _ Hd) in B. rewrite B. auto.
  - intros x Hin Hm. rewrite (mapM_dict_missing _ _ x Hin Hm). auto.
Qed.
Print Assumptions C28_sequence.

Example C28_sequence_example :
  is_dict [(7, VInt 1); (3, VStr "a")]
  /\ bound [(7, VInt 1); (3, VStr "a")] [3; 7; 3] [VStr "a"; VInt 1; VStr "a"]
  /\ sequence_evaluate [3; 7; 3] [(7, VInt 1); (3, VStr "a")]
     = Ok [VList [VStr "a"; VInt 1; VStr "a"]].
Proof.
  split; [|split; [|reflexivity]].
  - repeat (apply NoDup_cons || apply NoDup_nil); simpl; intuition congruence.
  - repeat (apply Forall2_cons || apply Forall2_nil); simpl; auto.
Qed.

(** ** Concatenate: with the values in the order of the inputs, as a running
    workflow gives them *)

Theorem C28_concatenate : forall inputs vs,
  List.length inputs = List.length vs ->
  (forall ls, ls <> [] -> vs = map VList ls ->
     concatenate_evaluate (combine inputs vs) = Ok [VList (concat ls)])
  /\ (forall ls, ls <> [] -> vs = map VData ls ->
     concatenate_evaluate (combine inputs vs) = Ok [VData (concat ls)])
  /\ (vs = [] -> concatenate_evaluate (combine inputs vs) = Err TypeError)
  /\ (forall v w, In v vs -> In w vs -> type_of v <> type_of w ->
     concatenate_evaluate (combine inputs vs) = Err TypeError)
  /\ (forall t, vs <> [] -> (forall v, In v vs -> type_of v = t) -> t <> TList -> t <> TData ->
     concatenate_evaluate (combine inputs vs) = Err ValueError).
Proof.
  intros inputs vs Hlen. unfold concatenate_evaluate.
  assert (map snd (combine inputs vs) = vs) as ->.
  { revert vs Hlen. induction inputs as [|x inputs IH]; intros [|v vs]; simpl; try discriminate; auto.
    intros [= H]. f_equal. auto. }
  repeat split.
  - intros ls Hne ->. rewrite concatenate_lists; auto.
  - intros ls Hne ->. rewrite concatenate_datasets; auto.
  - intros ->. auto.
  - intros v w Hv Hw Ht. rewrite (concatenate_mixed vs v w); auto.
  - intros t Hne Ht Hl Hd'. rewrite (concatenate_other vs t); auto.
Qed.
Print Assumptions C28_concatenate.

Example C28_concatenate_example :
  concatenate_evaluate (combine [4; 2; 9] (map VList [[VInt 3]; []; [VInt 1; VStr "x"]]))
  = Ok [VList [VInt 3; VInt 1; VStr "x"]]
  /\ concatenate_evaluate [(4, VList [VInt 3]); (2, VTuple [VInt 4])] = Err TypeError
  /\ concatenate_evaluate [(4, VTuple [VInt 3]); (2, VTuple [VInt 4])] = Err ValueError.
Proof. repeat split. Qed.

(** The inputs of the block have no say in the order: given the same values in
    another order, the result is another list. *)
Theorem C28_concatenate_order_refuted : exists inputs values l1 l2,
  is_dict values /\ bound values inputs [VList l1; VList l2]
  /\ concatenate_evaluate values = Ok [VList (l2 ++ l1)] /\ l2 ++ l1 <> l1 ++ l2.
Proof.
  exists [1; 2], [(2, VList [VInt 20]); (1, VList [VInt 10])], [VInt 10], [VInt 20].
  repeat split; try discriminate.
  - repeat (apply NoDup_cons || apply NoDup_nil); simpl; intuition congruence.
  - repeat (apply Forall2_cons || apply Forall2_nil); simpl; auto.
Qed.
Print Assumptions C28_concatenate_order_refuted.

(** ** Unpacker *)

(** [i] designates the element [x] of [l], from the end when negative. *)
Definition at_index (l : list val) (i : Z) (x : val) : Prop :=
  (0 <= i /\ nth_error l (Z.to_nat i) = Some x)%Z
  \/ (i < 0 /\ 0 <= Z.of_nat (List.length l) + i
      /\ nth_error l (Z.to_nat (Z.of_nat (List.length l) + i)) = Some x)%Z.

Lemma py_get_at l i x : py_get l i = Ok x <-> at_index l i x.
Proof.
  unfold py_get, py_index, at_index.
  destruct (Z.leb_spec 0 i) as [H|H].
  - destruct (Z.ltb_spec i (Z.of_nat (List.length l))) as [H'|H'].
    + destruct (nth_error l (Z.to_nat i)) as [y|]; split.
      * intros [= ->]. auto.
      * intros [[_ E]|[E _]]; [congruence|lia].
      * discriminate.
      * intros [[_ E]|[E _]]; [congruence|lia].
    + split; [discriminate|]. intros [[_ E]|[E _]]; [|lia].
      assert (Z.to_nat i < List.length l) by (apply nth_error_Some; congruence). lia.
  - destruct (Z.leb_spec (- Z.of_nat (List.length l)) i) as [H'|H'].
    + rewrite (Z.add_comm i).
      destruct (nth_error l (Z.to_nat (Z.of_nat (List.length l) + i))) as [y|]; split.
      * intros [= ->]. right. repeat split; auto; lia.
      * intros [[E _]|[_ [_ E]]]; [lia|congruence].
      * discriminate.
      * intros [[E _]|[_ [_ E]]]; [lia|congruence].
    + split; [discriminate|]. intros [[E _]|[_ [E _]]]; lia.
Qed.

Lemma py_get_err {A} (l : list A) i e : py_get l i = Err e -> e = IndexError.
Proof.
  unfold py_get. destruct (py_index _ _); [destruct (nth_error _ _)|]; congruence.
Qed.

Lemma py_item_elements s l i : elements s l -> py_item s i = py_get l i.
Proof. intros H. inversion H; subst; simpl; auto. f_equal. apply chars_are_chars. auto. Qed.

Theorem C28_unpacker : forall values x s l indices others, is_dict values -> In (x, s) values ->
  elements s l ->
  (forall outs, Forall2 (at_index l) indices outs ->
     unpacker_evaluate indices (x :: others) values = Ok outs)
  /\ (forall outs, unpacker_evaluate indices (x :: others) values = Ok outs ->
     Forall2 (at_index l) indices outs)
  /\ (forall i, In i indices -> (forall v, ~ at_index l i v) ->
     unpacker_evaluate indices (x :: others) values = Err IndexError).
Proof.
  intros values x s l indices others Hd Hin He. unfold unpacker_evaluate.
  apply (dict_get_in _ _ _ Hd) in Hin.
  assert (E : mapM (fun i => let* x0 := of_option IndexError (nth_error (x :: others) 0) in
                 let* s0 := dict_get values x0 in py_item s0 i) indices = mapM (py_get l) indices).
  { apply mapM_ext. intros i _. simpl. rewrite Hin. simpl. apply py_item_elements. auto. }
  rewrite E. repeat split.
  - intros outs F. apply mapM_forall2. clear E. induction F; constructor; auto. apply py_get_at. auto.
  - intros outs F. apply mapM_forall2 in F. clear E. induction F; constructor; auto. apply py_get_at. auto.
  - intros i Hi Hno. clear E.
    induction indices as [|j indices IH]; simpl in *; [tauto|].
    destruct (py_get l j) as [v|e] eqn:Ej; simpl.
    + destruct Hi as [->|Hi]; [exfalso; apply (Hno v); apply py_get_at; auto|].
      rewrite IH; auto.
    + apply py_get_err in Ej. congruence.
Qed.
Print Assumptions C28_unpacker.

Example C28_unpacker_example :
  elements (VTuple [VInt 5; VInt 6; VInt 7]) [VInt 5; VInt 6; VInt 7]
  /\ Forall2 (at_index [VInt 5; VInt 6; VInt 7]) [2; 0; -2]%Z [VInt 7; VInt 5; VInt 6]
  /\ unpacker_evaluate [2; 0; -2]%Z [1] [(1, VTuple [VInt 5; VInt 6; VInt 7])]
     = Ok [VInt 7; VInt 5; VInt 6].
Proof.
  split; [constructor|split; [|reflexivity]]. unfold at_index.
  apply Forall2_cons; [left; split; [lia|reflexivity]|].
  apply Forall2_cons; [left; split; [lia|reflexivity]|].
  apply Forall2_cons; [right; repeat split; simpl; lia|constructor].
Qed.

(** An empty dataset has every element one may ask for: the empty list. *)
Theorem C28_unpacker_empty_dataset_refuted : forall values x indices others,
  is_dict values -> In (x, VData []) values ->
  unpacker_evaluate indices (x :: others) values = Ok (map (fun _ => VList []) indices).
Proof.
  intros values x indices others Hd Hin. apply (dict_get_in _ _ _ Hd) in Hin.
  unfold unpacker_evaluate. apply mapM_forall2.
  induction indices as [|i indices IH]; simpl; constructor; auto. rewrite Hin. auto.
Qed.
Print Assumptions C28_unpacker_empty_dataset_refuted.

Example C28_unpacker_empty_dataset_example :
  unpacker_evaluate [0; 12]%Z [1] [(1, VData [])] = Ok [VList []; VList []]
  /\ unpacker_evaluate [0; 12]%Z [1] [(1, VList [])] = Err IndexError.
Proof. split; reflexivity. Qed.

(** ** Flatten *)

Theorem C28_flatten : forall values x s outer others, is_dict values -> In (x, s) values ->
  elements s outer ->
  (forall ls fuel, Forall2 elements outer ls ->
     size s <= fuel -> (forall v, In v outer -> size v <= fuel) ->
     flatten_evaluate fuel (x :: others) values = Ok [VList (concat ls)])
  /\ (forall fuel outs, flatten_evaluate fuel (x :: others) values = Ok outs ->
     exists ls, Forall2 elements outer ls /\ outs = [VList (concat ls)])
  /\ (forall fuel l1 v l2, outer = l1 ++ v :: l2 -> not_iterable v ->
     size s <= fuel -> (forall w, In w l1 -> size w <= fuel /\ exists l, elements w l) ->
     flatten_evaluate fuel (x :: others) values = Err TypeError).
Proof.
  intros values x s outer others Hd Hin He. apply (dict_get_in _ _ _ Hd) in Hin.
  unfold flatten_evaluate. cbn [nth_error of_option bind]. rewrite Hin. cbn [bind]. repeat split.
  - intros ls fuel F Hs Hv. rewrite (py_iter_elements fuel s outer He Hs). cbn [bind].
    rewrite (foldM_flatten fuel outer [] ls); auto. clear He.
    induction F as [|v l vs ls Hvl F IH]; constructor.
    + apply py_iter_elements; auto. apply Hv. simpl; auto.
    + apply IH. intros w Hw. apply Hv. simpl; auto.
  - intros fuel outs. destruct (py_iter fuel s) as [l|] eqn:E; [|discriminate]. cbn [bind].
    apply py_iter_sound in E. rewrite (elements_det _ _ _ E He). clear E l.
    destruct (foldM _ outer []) as [out|] eqn:E; [|discriminate]. cbn [bind]. intros [= <-].
    destruct (foldM_flatten_inv _ _ _ _ E) as [ls F].
    exists ls. split.
    + clear - F. induction F; constructor; auto. eapply py_iter_sound; eauto.
    + rewrite (foldM_flatten fuel outer [] ls F) in E. simpl in E. congruence.
  - intros fuel l1 v l2 Ho Hv Hs Hw. rewrite (py_iter_elements fuel s outer He Hs). cbn [bind].
    rewrite Ho, foldM_app.
    assert (exists ls, Forall2 (fun v l => py_iter fuel v = Ok l) l1 ls) as [ls F].
    { clear - Hw. induction l1 as [|w l1 IH]; [exists []; constructor|].
      destruct IH as [ls F]; [intros u Hu; apply Hw; simpl; auto|].
      destruct (Hw w (or_introl eq_refl)) as [Hs [l Hl]].
      exists (l :: ls). constructor; auto. apply py_iter_elements; auto. }
    rewrite (foldM_flatten fuel l1 [] ls F). cbn [bind foldM].
    rewrite (not_iterable_iter fuel v Hv). auto.
Qed.
Print Assumptions C28_flatten.

Example C28_flatten_example :
  flatten_evaluate 10 [1] [(1, VList [VTuple [VInt 1; VInt 2]; VStr "ab"; VList []; VData [VObj 5 8]])]
  = Ok [VList [VInt 1; VInt 2; VStr "a"; VStr "b"; VObj 5 8]]
  /\ flatten_evaluate 10 [1] [(1, VList [VTuple [VInt 1; VInt 2]; VInt 3])] = Err TypeError.
Proof. split; reflexivity. Qed.

(** Looping over an empty dataset never ends, in whatever block. *)
Theorem C28_empty_dataset_loop_refuted : forall values x others, is_dict values ->
  In (x, VData []) values ->
  (forall fuel, flatten_evaluate fuel (x :: others) values = Err OutOfFuel)
  /\ (forall run fuel, foreach_evaluate run fuel [0] 0 [x] values = Err OutOfFuel)
  /\ (forall fuel, product_evaluate fuel [x] values = Err OutOfFuel).
Proof.
  intros values x others Hd Hin. apply (dict_get_in _ _ _ Hd) in Hin. repeat split; intros.
  - unfold flatten_evaluate. cbn [nth_error of_option bind]. rewrite Hin. cbn [bind py_iter].
    rewrite iter_items_empty. auto.
  - unfold foreach_evaluate. simpl. rewrite Hin. simpl. rewrite iter_items_empty. auto.
  - unfold product_evaluate. simpl. rewrite Hin. simpl. rewrite iter_items_empty. auto.
Qed.
Print Assumptions C28_empty_dataset_loop_refuted.

(** ** Product *)

Theorem C28_product : forall values inputs vs lists, is_dict values -> bound values inputs vs ->
  Forall2 elements vs lists ->
  exists combinations,
    (forall fuel, (forall v, In v vs -> size v <= fuel) ->
       product_evaluate fuel inputs values = Ok [VList (map VTuple combinations)])
    (* as many as the product of the lengths *)
    /\ List.length combinations = fold_right Nat.mul 1 (map (@List.length val) lists)
    (* each choice of a position in each list is there, at its rank *)
    /\ (forall positions combination, designates lists positions combination ->
         nth_error combinations (rank (map (@List.length val) lists) positions) = Some combination)
    (* and nothing else *)
    /\ (forall n combination, nth_error combinations n = Some combination ->
         exists positions, designates lists positions combination
           /\ rank (map (@List.length val) lists) positions = n
           /\ forall positions' combination', designates lists positions' combination' ->
                rank (map (@List.length val) lists) positions' = n -> positions' = positions)
    (* ranks follow the lexicographic order of the positions *)
    /\ (forall p q c d, designates lists p c -> designates lists q d ->
         (lex p q <-> rank (map (@List.length val) lists) p < rank (map (@List.length val) lists) q)).
Proof.
  intros values inputs vs lists Hd B F. exists (product lists). fold (sizes lists).
  split; [|split; [|split; [|split]]].
  - intros fuel Hs. unfold product_evaluate. apply (bound_mapM _ _ _ Hd) in B. rewrite B. cbn [bind].
    assert (mapM (py_iter fuel) vs = Ok lists) as ->; auto.
    apply mapM_forall2. clear B. induction F as [|v l vs ls Hvl F IH]; constructor.
    + apply py_iter_elements; auto. apply Hs. simpl; auto.
    + apply IH. intros w Hw. apply Hs. simpl; auto.
  - apply product_length.
  - apply product_nth.
  - intros n c E. assert (n < List.length (product lists)) as Hn by (apply nth_error_Some; congruence).
    rewrite product_length in Hn. destruct (rank_onto lists n Hn) as (ps & vs' & D & Hr).
    exists ps. pose proof (product_nth _ _ _ D) as E'. rewrite Hr in E'.
    assert (vs' = c) as <- by congruence. repeat split; auto; try apply D.
    intros ps' c' D' Hr'. apply (rank_inj lists); try congruence;
      eapply designates_bounds; eassumption.
  - intros p q c d D D'. apply rank_lex; eapply designates_bounds; eassumption.
Qed.
Print Assumptions C28_product.

Example C28_product_example :
  product_evaluate 5 [1; 2] [(2, VStr "xy"); (1, VList [VInt 1; VInt 2; VInt 1])]
  = Ok [VList (map VTuple [[VInt 1; VStr "x"]; [VInt 1; VStr "y"]; [VInt 2; VStr "x"];
                           [VInt 2; VStr "y"]; [VInt 1; VStr "x"]; [VInt 1; VStr "y"]])]
  /\ product_evaluate 5 [] [] = Ok [VList [VTuple []]]
  /\ designates [[VInt 1; VInt 2; VInt 1]; [VStr "x"; VStr "y"]] [2; 1] [VInt 1; VStr "y"]
  /\ rank [3; 2] [2; 1] = 5.
Proof.
  repeat split. simpl. repeat (apply Forall2_cons || apply Forall2_nil); reflexivity.
Qed.

(** ** For each *)

Theorem C28_foreach : forall run values inputs wb_inputs bindings index k s els,
  is_dict values -> NoDup wb_inputs -> List.length inputs = List.length wb_inputs ->
  bound values inputs bindings ->
  (* the iterated input, counted from the end when negative *)
  (0 <= index < Z.of_nat (List.length wb_inputs) /\ k = Z.to_nat index
   \/ index < 0 /\ 0 <= Z.of_nat (List.length wb_inputs) + index
      /\ k = Z.to_nat (Z.of_nat (List.length wb_inputs) + index))%Z ->
  nth_error bindings k = Some s -> elements s els ->
  forall fuel, size s <= fuel ->
  (forall outs, Forall2 (fun e o => run (arguments_for k e bindings) = Ok o) els outs ->
     foreach_evaluate run fuel wb_inputs index inputs values = Ok [VList outs])
  /\ (forall result, foreach_evaluate run fuel wb_inputs index inputs values = Ok result ->
     exists outs, Forall2 (fun e o => run (arguments_for k e bindings) = Ok o) els outs
                  /\ result = [VList outs])
  /\ (forall err, foreach_evaluate run fuel wb_inputs index inputs values = Err err <->
     exists before e after, els = before ++ e :: after
       /\ run (arguments_for k e bindings) = Err err
       /\ forall e', In e' before -> exists o, run (arguments_for k e' bindings) = Ok o).
Proof.
  intros run values inputs wb bindings index k s els Hd Hnd Hlen B Hidx Hk He fuel Hs.
  pose proof (Forall2_len _ _ _ B) as Hlb.
  assert (Hkl : k < List.length wb) by (rewrite <- Hlen, Hlb; apply nth_error_Some; congruence).
  destruct (nth_error wb k) as [x|] eqn:Hx; [|apply nth_error_None in Hx; lia].
  assert (Hg : py_get wb index = Ok x).
  { unfold py_get, py_index. destruct Hidx as [[Hi ->]|(Hi & Hi' & ->)].
    - rewrite (proj2 (Z.leb_le 0 index)), (proj2 (Z.ltb_lt index _)) by lia. rewrite Hx. auto.
    - rewrite (proj2 (Z.leb_gt 0 index)), (proj2 (Z.leb_le _ index)) by lia.
      rewrite (Z.add_comm index). rewrite Hx. auto. }
  assert (E : foreach_evaluate run fuel wb index inputs values
              = bind (mapM (fun e => run (arguments_for k e bindings)) els) (fun l => Ok [VList l])).
  { unfold foreach_evaluate. rewrite Hg. cbn [bind].
    rewrite (bindings_dict values inputs wb [] bindings); auto.
    - cbn [bind app].
      assert (Hc : dict_get (combine wb bindings) x = Ok s).
      { apply dict_get_in.
        - unfold is_dict. assert (List.length wb = List.length bindings) as Hl by congruence.
          assert (map fst (combine wb bindings) = wb) as ->; auto.
          clear - Hl. revert bindings Hl. induction wb as [|y wb IH]; intros [|b bs]; simpl;
            try discriminate; auto. intros [= H]. f_equal. auto.
        - clear - Hx Hk. revert bindings k Hk Hx. induction wb as [|y wb IH]; intros [|b bs] [|k] Hk Hx;
            simpl in *; try discriminate.
          + injection Hk as ->. injection Hx as ->. auto.
          + right. eapply IH; eauto. }
      rewrite Hc. cbn [bind]. rewrite (py_iter_elements fuel s els He Hs). cbn [bind].
      rewrite (foreach_loop_spec run wb k x Hnd Hx); auto. congruence.
    - clear - B Hd. induction B; constructor; auto. apply dict_get_in; auto. }
  rewrite E. split; [|split].
  - intros outs F. apply mapM_forall2 in F. rewrite F. auto.
  - intros result. destruct (mapM _ els) as [outs|] eqn:E'; [|discriminate].
    cbn [bind]. intros [= <-]. exists outs. split; auto. apply mapM_forall2. auto.
  - intros err. rewrite <- mapM_first_error. destruct (mapM _ els); simpl; split; congruence.
Qed.
Print Assumptions C28_foreach.

(** The sub-workflow adds its two inputs and fails above a threshold. *)
Definition add_run (arguments : list (nat * val)) : res val :=
  match arguments with
  | [(0, VInt a); (1, VInt b)] => if (a + b <=? 100)%Z then Ok (VInt (a + b)) else Err (EvalError 1)
  | _ => Err KeyError
  end.

Example C28_foreach_example :
  foreach_evaluate add_run 9 [20; 21] (-1) [30; 31]
    [(31, VTuple [VInt 1; VInt 2; VInt 1]); (30, VInt 10)]
  = Ok [VList [VInt 11; VInt 12; VInt 11]]
  /\ arguments_for 1 (VInt 2) [VInt 10; VTuple [VInt 1; VInt 2; VInt 1]] = [(0, VInt 10); (1, VInt 2)]
  /\ foreach_evaluate add_run 9 [20; 21] 0 [30; 31]
    [(31, VInt 99); (30, VList [VInt 1; VInt 2; VStr "a"])] = Err (EvalError 1).
Proof. repeat split. Qed.

(** ** Arithmetic and strings *)

(** The sum is that of the variables, not of the values: it always fails. *)
Theorem C28_sum_refuted : forall values, values <> [] -> sum_evaluate values = Err TypeError.
Proof. intros [|[x v] values] H; [congruence|]. reflexivity. Qed.
Print Assumptions C28_sum_refuted.

Example C28_sum_example :
  sum_evaluate [(1, VInt 3); (2, VInt 4)] = Err TypeError /\ sum_evaluate [] = Ok [VInt 0].
Proof. split; reflexivity. Qed.

Theorem C28_substraction : forall values x y a b others, is_dict values ->
  In (x, a) values -> In (y, b) values ->
  (forall m n, a = VInt m -> b = VInt n ->
     substraction_evaluate (x :: y :: others) values = Ok [VInt (m - n)])
  /\ (type_of a <> TInt \/ type_of b <> TInt ->
     substraction_evaluate (x :: y :: others) values = Err TypeError).
Proof.
  intros values x y a b others Hd Hx Hy. apply (dict_get_in _ _ _ Hd) in Hx, Hy.
  unfold substraction_evaluate. cbn [nth_error of_option bind]. rewrite Hx. cbn [bind].
  rewrite Hy. cbn [bind]. split.
  - intros m n -> ->. auto.
  - intros H. destruct a, b; simpl in *; auto; destruct H; congruence.
Qed.
Print Assumptions C28_substraction.

Example C28_substraction_example :
  substraction_evaluate [5; 4] [(4, VInt 7); (5, VInt 2)] = Ok [VInt (-5)]
  /\ substraction_evaluate [5; 4] [(4, VInt 7); (5, VStr "2")] = Err TypeError.
Proof. split; reflexivity. Qed.

Theorem C28_strings : forall separator values inputs vs, is_dict values -> bound values inputs vs ->
  (forall strings, vs = map VStr strings ->
     exists s, joined separator strings s
       /\ concatenate_strings_evaluate separator inputs values = Ok [VStr s])
  /\ (forall v, In v vs -> type_of v <> TStr ->
     concatenate_strings_evaluate separator inputs values = Err TypeError).
Proof.
  intros sep values inputs vs Hd B. apply (bound_mapM _ _ _ Hd) in B.
  unfold concatenate_strings_evaluate. rewrite B. cbn [bind]. split.
  - intros strings ->. destruct (str_join_total sep strings) as [s E]. exists s. split.
    + apply str_join_spec. auto.
    + rewrite E. auto.
  - intros v Hv Ht. rewrite (str_join_type sep vs v Hv Ht). auto.
Qed.
Print Assumptions C28_strings.

Example C28_strings_example :
  concatenate_strings_evaluate ", " [3; 1; 2] [(1, VStr "b"); (2, VStr ""); (3, VStr "a")]
  = Ok [VStr "a, b, "]
  /\ joined ", " ["a"; "b"; ""] "a, b, ".
Proof.
  split; [reflexivity|].
  apply (j_more ", " "a" ["b"; ""] "b, "); [discriminate|].
  apply (j_more ", " "b" [""] ""); [discriminate|]. constructor.
Qed.

(** ** C44: blocks that call user code *)

Theorem C44_instantiate : forall call inputs values, is_dict values -> NoDup (map snd inputs) ->
  (forall vs, bound values (map fst inputs) vs ->
     (forall o, call (combine (map snd inputs) vs) = Ok o ->
        instantiate_evaluate call inputs values = Ok [o])
     /\ (forall e, call (combine (map snd inputs) vs) = Err e ->
        instantiate_evaluate call inputs values = Err e))
  /\ (forall x, In x (map fst inputs) -> ~ In x (map fst values) ->
     instantiate_evaluate call inputs values = Err KeyError).
Proof.
  intros call inputs values Hd Hnd. unfold instantiate_evaluate. split.
  - intros vs B. rewrite (instantiate_arguments_bound values Hd inputs vs Hnd B). cbn [bind].
    split; intros r E; rewrite E; auto.
  - intros x Hin Hm. rewrite (instantiate_arguments_missing values inputs x Hin Hm). auto.
Qed.
Print Assumptions C44_instantiate.

Theorem C44_class_method : forall call inputs values arguments, is_dict values ->
  NoDup (map snd inputs) -> given values inputs arguments ->
  (forall r, call arguments = Ok r -> class_method_evaluate call inputs values = Ok [r])
  /\ (forall e, call arguments = Err e -> class_method_evaluate call inputs values = Err e).
Proof.
  intros call inputs values args Hd Hnd G. unfold class_method_evaluate.
  rewrite (method_arguments_given values Hd inputs args Hnd G).
  split; intros r E; rewrite E; auto.
Qed.
Print Assumptions C44_class_method.

(** The method of the object bound to the first input is called with the other
    inputs by name; the outputs are its result and the object.  It is called with
    the progress callback first, and again without when that raises TypeError. *)
Theorem C44_model_method : forall method model name others values o arguments, is_dict values ->
  NoDup (map snd others) -> In (model, o) values -> given values others arguments ->
  let evaluation := model_method_evaluate method ((model, name) :: others) values in
  (forall r, method o true arguments = Ok r -> evaluation = (Ok [r; o], [(true, arguments)]))
  /\ (forall e, method o true arguments = Err e -> e <> TypeError ->
     evaluation = (Err e, [(true, arguments)]))
  /\ (method o true arguments = Err TypeError ->
     snd evaluation = [(true, arguments); (false, arguments)]
     /\ (forall r, method o false arguments = Ok r -> fst evaluation = Ok [r; o])
     /\ (forall e, method o false arguments = Err e -> fst evaluation = Err e)).
Proof.
  intros method model name others values o args Hd Hnd Hin G evaluation.
  apply (dict_get_in _ _ _ Hd) in Hin. subst evaluation. unfold model_method_evaluate.
  cbn [fst]. rewrite Hin. rewrite (method_arguments_given values Hd others args Hnd G).
  split; [|split].
  - intros r ->. auto.
  - intros e -> Hne. destruct e; congruence.
  - intros ->. destruct (method o false args) as [r|e]; repeat split; simpl; congruence.
Qed.
Print Assumptions C44_model_method.

(** A method that takes the callback and raises TypeError on its own account is
    run twice. *)
Theorem C44_called_twice_refuted : exists method inputs values,
  (forall o arguments, method o true arguments = method o false arguments)
  /\ List.length (snd (model_method_evaluate method inputs values)) = 2.
Proof.
  exists (fun _ _ _ => Err TypeError), [(1, "Model")], [(1, VObj 4 4)]. split; reflexivity.
Qed.
Print Assumptions C44_called_twice_refuted.

Example C44_example :
  given [(5, VInt 1); (6, VInt 2); (8, VObj 3 3)] [(6, "b"); (7, "c"); (5, "a")] [("b", VInt 2); ("a", VInt 1)]
  /\ class_method_evaluate (fun a => Ok (VInt (Z.of_nat (List.length a))))
       [(6, "b"); (7, "c"); (5, "a")] [(5, VInt 1); (6, VInt 2); (8, VObj 3 3)] = Ok [VInt 2]
  /\ instantiate_evaluate (fun a => match a with [("b", v); ("a", w)] => Ok (VTuple [v; w]) | _ => Err TypeError end)
       [(6, "b"); (5, "a")] [(5, VInt 1); (6, VInt 2); (8, VObj 3 3)] = Ok [VTuple [VInt 2; VInt 1]]
  /\ model_method_evaluate (fun o cb a => if cb then Err TypeError else Ok (VList (o :: map snd a)))
       [(8, "Model"); (6, "b"); (7, "c")] [(5, VInt 1); (6, VInt 2); (8, VObj 3 3)]
     = (Ok [VList [VObj 3 3; VInt 2]; VObj 3 3], [(true, [("b", VInt 2)]); (false, [("b", VInt 2)])]).
Proof.
  split; [|repeat split].
  apply g_value; [simpl; auto|]. apply g_none; [simpl; lia|]. apply g_value; [simpl; auto|]. constructor.
Qed.

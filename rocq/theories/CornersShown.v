(** C62: selectors of blocks without a view, digits that are not numbers. *)
From Coq Require Import String Ascii Bool Arith ZArith DecimalString DecimalNat Lia List.
From Verif Require Import Base BaseProofs PyValue PathsModel PathsSpec PathsProofs ExecModel BranchModel ShownModel ShownProofs.
Import ListNotations.
Local Open Scope string_scope.

(** Without a view, a display block is told by its name (its type when it has none) and by its index. *)
Definition named_after (d : display_block) (b : nat) (s : string) : Prop :=
  (block_name d <> "" /\ s = block_name d ++ " (" ++ dec b ++ ")") \/ (block_name d = "" /\ s = block_type d ++ " (" ++ dec b ++ ")").

Theorem C62_generic_names : forall display_of b d, display_of b = Some d -> chosen d = NoSelector \/ chosen d = Legacy "" ->
  named_after d b (block_selector display_of b).
Proof.
  intros display_of b d D C. unfold block_selector, named_after. rewrite D.
  destruct (String.eqb_spec (block_name d) "") as [E|N]; destruct C as [-> | ->]; auto.
Qed.

Lemma chars_app s t : list_ascii_of_string (s ++ t) = (list_ascii_of_string s ++ list_ascii_of_string t)%list.
Proof. induction s; cbn; congruence. Qed.

Lemma tail_unique {A} (x : A) (l l' m m' : list A) : (l ++ x :: m = l' ++ x :: m')%list -> ~ In x m -> ~ In x m' -> m = m'.
Proof.
  revert l'. induction l as [|a l IH]; intros [|a' l'] E N N'; cbn in E.
  - congruence.
  - injection E as -> ->. exfalso. apply N, in_or_app. right. left. auto.
  - injection E as <- <-. exfalso. apply N', in_or_app. right. left. auto.
  - injection E as _ E. eauto.
Qed.

Lemma dec_injective b c : dec b = dec c -> b = c.
Proof.
  unfold dec. intros E. apply (f_equal NilZero.uint_of_string) in E.
  assert (N : forall n, Nat.to_uint n <> Decimal.Nil).
  { intros n. rewrite <- (Unsigned.of_to n), Unsigned.to_of. unfold Decimal.unorm. destruct (Decimal.nzhead _); discriminate. }
  rewrite !NilZero.usu in E by auto. injection E as E. apply (f_equal Nat.of_uint) in E. rewrite !Unsigned.of_to in E. auto.
Qed.

(** Two such blocks never have the same selector, whatever their names. *)
Theorem C62_generic_distinct : forall display_of b c d e, display_of b = Some d -> display_of c = Some e ->
  chosen d = NoSelector \/ chosen d = Legacy "" -> chosen e = NoSelector \/ chosen e = Legacy "" ->
  block_selector display_of b = block_selector display_of c -> b = c.
Proof.
  intros display_of b c d e D E Cd Ce Q.
  assert (forall x y, x ++ " (" ++ dec b ++ ")" = y ++ " (" ++ dec c ++ ")" -> b = c) as K.
  { intros x y H. apply dec_injective. apply (f_equal list_ascii_of_string) in H. rewrite !chars_app in H.
    change (list_ascii_of_string " (") with ([" "] ++ ["("])%list%char in H. rewrite <- !app_assoc in H.
    rewrite !(app_assoc (list_ascii_of_string _) [" "%char]) in H. cbn [app] in H.
    assert (ND : forall n, ~ In "("%char (list_ascii_of_string (dec n) ++ [")"%char])%list).
    { intros n I. apply in_app_or in I. destruct I as [I|[I|[]]]; [|discriminate]. apply dec_digits in I.
      repeat (destruct I as [I|I]; [discriminate|]). destruct I. }
    apply (tail_unique "("%char) in H; auto. apply app_inj_tail in H. destruct H as [H _].
    apply (f_equal string_of_list_ascii) in H. rewrite !string_of_list_ascii_of_string in H. auto. }
  destruct (C62_generic_names display_of b d D Cd) as [[_ X]|[_ X]], (C62_generic_names display_of c e E Ce) as [[_ Y]|[_ Y]];
    rewrite X, Y in Q; eauto.
Qed.

(** Below values, characters that are digits for python but not for int, an exponent two for instance: ValueError, whatever the run holds. *)
Theorem C62_odd_digits : forall w int_of isdigit generic fuel s k r, no_slash k -> isdigit k = true -> int_of k = None ->
  get_from_path w int_of isdigit generic fuel s ("#/values/" ++ k) = Err ValueError /\
  get_from_path w int_of isdigit generic fuel s ("#/values/" ++ k ++ "/" ++ r) = Err ValueError.
Proof.
  intros w int_of isdigit generic fuel s k r N D I. unfold get_from_path, in_run, segments.
  change (lstrip ("#/values/" ++ k)) with ("values" ++ String "/" k). change (lstrip ("#/values/" ++ k ++ "/" ++ r)) with ("values" ++ String "/" (k ++ String "/" r)).
  rewrite !(split_slash "values") by (intros H; simpl in H; intuition discriminate).
  rewrite (split_no_slash k N), (split_slash k r N), String.eqb_refl, D, I. auto.
Qed.

Definition unnamed (b : nat) : option display_block :=
  Some {| chosen := NoSelector; block_type := "plot_data"; serialize_flag := true; load_flag := false; block_name := if Nat.eqb b 1 then "Front" else "" |}.
Example C62_generic_example : map (block_selector unnamed) [0; 1; 2] = ["plot_data (0)"; "Front (1)"; "plot_data (2)"].
Proof. reflexivity. Qed.

Print Assumptions C62_generic_names.
Print Assumptions C62_generic_distinct.
Print Assumptions C62_odd_digits.

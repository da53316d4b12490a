(** Corners of properties stated elsewhere: which exception is raised, and cases other theorems leave out
    (C06, C21, C33, C41). *)
From Coq Require Import ZArith Lia Bool String Ascii List Arith.
From Verif Require Import Base BaseProofs.
Import ListNotations.

(** ** C21 *)
From Verif Require Import VariablesModel.
(** A configuration sets the default and the label; it locks when it says so and gives a value; without
    one it raises, after the default and the label have been changed. *)
Theorem C21_config : forall V L (x : variable V L) value label locked,
  let y := fst (update_from_config value label locked x) in
  v_default y = value /\ v_label y = label /\
  (locked = false -> snd (update_from_config value label locked x) = None /\ v_lock y = v_lock x) /\
  (locked = true -> forall d, value = Some d -> snd (update_from_config value label locked x) = None /\ is_locked y = Ok true) /\
  (locked = true -> value = None -> snd (update_from_config value label locked x) = Some ValueError /\ v_lock y = v_lock x).
Proof.
  intros V L x value label [] y; unfold y, update_from_config, lock, is_locked; destruct value; cbn;
    repeat split; try discriminate; auto; intros; discriminate.
Qed.
Example C21_config_example :
  update_from_config (Some 3) "length"%string true (new_variable None "x"%string) = (mkVar (Some 3) true "length"%string, None).
Proof. reflexivity. Qed.

(** ** C33 *)
From Verif Require Import ParetoModel.
(** Costs are taken as they are when there is one line per object; otherwise, when the first line has one
    entry per object, columns become lines; otherwise they are refused. *)
Lemma transposed {T} (zero : T) w : forall rows, (forall row, In row rows -> w <= List.length row) ->
  List.length (transpose T zero w rows) = w /\
  forall j, j < w -> exists line, nth_error (transpose T zero w rows) j = Some line /\ List.length line = List.length rows /\
    forall i row, nth_error rows i = Some row -> nth_error line i = nth_error row j.
Proof.
  induction w as [|w IH]; intros rows H; [split; [reflexivity|lia]|]. cbn [transpose List.length].
  assert (H' : forall row, In row (map (fun row : list T => tl row) rows) -> w <= List.length row).
  { intros r I. apply in_map_iff in I. destruct I as [row [<- I]]. specialize (H row I). destruct row; cbn in *; lia. }
  destruct (IH _ H') as [A B]. split; [congruence|]. intros [|j] Hj; cbn [nth_error].
  - eexists. split; [reflexivity|]. split; [apply map_length|]. intros i row E. rewrite (map_nth_error _ _ _ E).
    specialize (H row (nth_error_In _ _ E)). destruct row; cbn in *; [lia|reflexivity].
  - destruct (B j ltac:(lia)) as (line & E1 & E2 & E3). exists line. split; auto. split; [rewrite E2; apply map_length|].
    intros i row E. rewrite (E3 i (tl row)); [|apply (map_nth_error (fun row : list T => tl row)); auto].
    specialize (H row (nth_error_In _ _ E)). destruct row; cbn in *; [lia|reflexivity].
Qed.
Lemma narrowest {T} (rows : list (list T)) n : forall k,
  k < fold_right (fun r n => Nat.min (List.length r) n) n rows <-> k < n /\ forall row, In row rows -> k < List.length row.
Proof.
  induction rows as [|r rows IH]; intros k; cbn [fold_right].
  - split; [intros H; split; auto; intros row []|tauto].
  - rewrite Nat.min_glb_lt_iff, IH. split.
    + intros (A & B & C). split; auto. intros row [<-|I]; auto.
    + intros [A B]. split; [apply B; left; auto|]. split; auto. intros row I. apply B. right. auto.
Qed.
Theorem C33_costs : forall T (zero : T) n (costs : list (list T)),
  (List.length costs = n -> check_costs T zero n costs = Ok costs) /\
  (List.length costs <> n -> forall first rest, costs = first :: rest ->
     (List.length first <> n -> check_costs T zero n costs = Err ValueError) /\
     (List.length first = n -> exists lines, check_costs T zero n costs = Ok lines /\
        (forall j, j < List.length lines <-> forall row, In row costs -> j < List.length row) /\
        forall j, j < List.length lines -> exists line, nth_error lines j = Some line /\ List.length line = List.length costs /\
          forall i row, nth_error costs i = Some row -> nth_error line i = nth_error row j)) /\
  (costs = [] -> n <> 0 -> check_costs T zero n costs = Err IndexError).
Proof.
  intros T zero n costs. unfold check_costs. split; [|split].
  - intros H. apply Nat.eqb_eq in H. rewrite H. reflexivity.
  - intros H first rest ->. apply Nat.eqb_neq in H. rewrite H. split; intros E.
    + apply Nat.eqb_neq in E. rewrite E. reflexivity.
    + rewrite (proj2 (Nat.eqb_eq _ _) E). eexists. split; [reflexivity|].
      set (w := fold_right _ _ _).
      assert (N := narrowest (first :: rest) (List.length first)). fold w in N.
      assert (W : forall row, In row (first :: rest) -> w <= List.length row).
      { intros row I. destruct (le_lt_dec w (List.length row)) as [|G]; auto. apply N in G. destruct G as [_ G]. specialize (G row I). lia. }
      destruct (transposed zero w _ W) as [A B]. rewrite A. split; [|exact B].
      intros j. rewrite N. split; [tauto|]. intros G. split; auto. apply G. left; auto.
  - intros -> H. destruct n; [congruence|reflexivity].
Qed.
Example C33_costs_example : check_costs nat 0 3 [[1; 2; 3]; [4; 5; 6]] = Ok [[1; 4]; [2; 5]; [3; 6]].
Proof. reflexivity. Qed.

(** ** C06 *)
From Verif Require Import PyValue PathsModel PathsSpec PathsProofs.
(** A name that is not a key raises KeyError when it is written as a tuple, ExtractionError otherwise. *)
Definition written_as_tuple (s : string) : Prop :=
  exists m, s = ("(" ++ m ++ ")")%string /\ In ","%char (list_ascii_of_string m).
Lemma list_app s t : list_ascii_of_string (s ++ t) = (list_ascii_of_string s ++ list_ascii_of_string t)%list.
Proof. induction s as [|c s IH]; cbn; [reflexivity|]. rewrite IH. reflexivity. Qed.
Lemma tuple_like_iff s : tuple_like s = true <-> written_as_tuple s.
Proof.
  unfold tuple_like, written_as_tuple. rewrite !andb_true_iff, existsb_exists. split.
  - intros [[A B] (x & C & D)]. destruct s as [|c s]; cbn [list_ascii_of_string] in *; [discriminate|].
    apply Ascii.eqb_eq in A. subst c. apply Ascii.eqb_eq in D. subst x.
    destruct (list_ascii_of_string s) as [|y l0] eqn:L; [destruct C as [C|[]]; discriminate|].
    destruct (exists_last (l := y :: l0)) as [l [z Z]]; [discriminate|]. rewrite Z in *.
    assert (Q : z = ")"%char).
    { apply Ascii.eqb_eq in B. rewrite <- B. change ("("%char :: l ++ [z])%list with (("("%char :: l) ++ [z])%list. symmetry. apply last_last. }
    subst z. exists (string_of_list_ascii l). split.
    + cbn. f_equal. apply (f_equal string_of_list_ascii) in L. rewrite string_of_list_ascii_of_string in L. rewrite L. clear.
      induction l as [|c l IH]; cbn; [reflexivity|]. rewrite IH. reflexivity.
    + rewrite list_ascii_of_string_of_list_ascii. destruct C as [C|C]; [discriminate|]. apply in_app_or in C. destruct C as [C|[C|[]]]; [auto|discriminate].
  - intros (m & -> & I). cbn [append list_ascii_of_string]. split; [split|].
    + reflexivity.
    + rewrite list_app. change (list_ascii_of_string ")") with [")"%char].
      change ("("%char :: list_ascii_of_string m ++ [")"%char])%list with (("("%char :: list_ascii_of_string m) ++ [")"%char])%list.
      rewrite last_last. reflexivity.
    + exists ","%char. split; [|reflexivity]. right. rewrite list_app. apply in_or_app. auto.
Qed.
Theorem C06_no_such_key : forall int_of isdigit n d s p, leading p -> good_segments [s] -> isdigit s = false -> lookup (KStr s) d = None ->
  (written_as_tuple s -> get_in_object_from_path int_of isdigit (S n) (VDict d) (p ++ s) false = Err KeyError) /\
  (~ written_as_tuple s -> get_in_object_from_path int_of isdigit (S n) (VDict d) (p ++ s) false = Err ExtractionError).
Proof.
  intros int_of isdigit n d s p P G D L. unfold get_in_object_from_path.
  assert (E : segments (p ++ s) = [s]).
  { change s with (String.concat "/" [s]) at 1. apply segments_good; auto.
    destruct P as [->|[->| ->]]; reflexivity. }
  rewrite E. cbn [get_at foldM snd bind]. unfold find. rewrite L, D. split; intros H.
  - apply tuple_like_iff in H. rewrite H. reflexivity.
  - destruct (tuple_like s) eqn:T; [|reflexivity]. apply tuple_like_iff in T. contradiction.
Qed.
Example C06_no_such_key_example :
  get_in_object_from_path (fun _ => None) (fun _ => false) 1 (VDict [(KStr "a", VInt 1)]) "#/(1, 2)" false = Err KeyError /\
  get_in_object_from_path (fun _ => None) (fun _ => false) 1 (VDict [(KStr "a", VInt 1)]) "#/(12)" false = Err ExtractionError.
Proof. split; reflexivity. Qed.

(** ** C27, C41 *)
From Verif Require Import ExecModel WiringModel.
(** A workflow whose output is not on a block can be neither loaded nor copied. *)
Theorem C41_output_off_blocks_refuted : forall (w : workflow) o i f next, output w = Some o -> variable_indices w o = Ok (ANbv i) ->
  deepcopy f next w = Err TypeError /\
  (forall ps ps', serialized_pipes w = Ok ps ->
     deserialize_pipes (map (rename_block f) (blocks w)) (map f (nonblock_variables w)) ps = Ok ps' -> rebuild f w = Err TypeError).
Proof.
  intros w o i f next O V. assert (S : serialized_output w = Ok (Some (ANbv i))) by (unfold serialized_output; rewrite O, V; reflexivity).
  split.
  - unfold deepcopy. rewrite S. reflexivity.
  - intros ps ps' A B. unfold rebuild. rewrite A. cbn [bind]. rewrite S. cbn [bind]. rewrite B. reflexivity.
Qed.
Example C41_output_off_blocks_example : deepcopy (fun v => v + 10) 20 (mkWf [mkBlock [1] [2]] [(0, 1)] (Some 0)) = Err TypeError.
Proof. reflexivity. Qed.

Print Assumptions C21_config.
Print Assumptions C33_costs.
Print Assumptions C06_no_such_key.
Print Assumptions C41_output_off_blocks_refuted.

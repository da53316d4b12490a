(** C91: the widths of columns of Excel sheets. *)
From Coq Require Import ZArith QArith List Bool Arith String Lia Lqa.
From Verif Require Import Base BaseProofs WidthsModel WidthsSpec WidthsProofs.
Import ListNotations.
Open Scope Q_scope.

Section Props.
Variable value : Type.
Variable str : value -> string.
Notation lengths col := (map (fun cell => String.length (shown value str cell)) col).
Notation autosize := (autosize_sheet_columns value str).

(** Each column has the width of its longest text and a half, between the bounds. *)
Theorem C91_widths : forall low high sheet, (0 < low)%nat -> Forall (fun col => (2 <= List.length col)%nat) sheet ->
  exists ws, autosize low high sheet = Ok ws /\
    Forall2 (fun col w => exists n q, w = Some q /\ largest low (lengths col) n /\ bounded_half high n q) sheet ws.
Proof.
  intros low high sheet P F. unfold autosize_sheet_columns. induction F as [|col sheet L F IH].
  - exists []. split; [reflexivity|constructor].
  - destruct IH as (ws & E & G). cbn [mapM]. unfold column_width at 1. destruct (get_one col L) as (x & ->). cbn [bind].
    pose proof (widest_largest value str col low) as W. pose proof W as (A & _).
    destruct (Nat.ltb_spec 0 (widest value str low col)) as [K|K]; [|lia]. cbn [bind]. rewrite E. cbn [bind]. eexists. split; [reflexivity|].
    constructor; [|exact G]. do 2 eexists. split; [reflexivity|]. split; [exact W|apply half_bounded].
Qed.

(** So that each text is shown whole, unless the column has the largest width. *)
Theorem C91_shown : forall low high sheet ws i col q cell, (0 < low)%nat -> autosize low high sheet = Ok ws ->
  nth_error sheet i = Some col -> nth_error ws i = Some (Some q) -> In cell col ->
  inject_Z (Z.of_nat (String.length (shown value str cell))) < q \/ q == inject_Z (Z.of_nat high).
Proof.
  intros low high sheet ws i col q cell P E Ec Ew I. unfold autosize_sheet_columns in E. apply mapM_ok_inv in E.
  assert (C : column_width value str low high col = Ok (Some q)).
  { clear - E Ec Ew. revert i Ec Ew. induction E as [|c w sheet ws H E IH]; intros [|i] Ec Ew; try discriminate; cbn in *.
    - injection Ec as ->. injection Ew as ->. exact H.
    - eapply IH; eassumption. }
  unfold column_width in C. destruct (py_get col 1); [|discriminate]. cbn [bind] in C. destruct (0 <? _)%nat; [|discriminate].
  destruct (widest_largest value str col low) as (_ & B & _). specialize (B _ (in_map _ _ _ I)). set (n := widest value str low col) in *.
  set (k := String.length (shown value str cell)) in *. assert (K : inject_Z (Z.of_nat k) <= inject_Z (Z.of_nat n)) by (rewrite <- Zle_Qle; lia).
  injection C as <-. destruct (Qlt_le_dec _ _); [right; reflexivity|left; lra].
Qed.

(** A sheet with one line is an error. *)
Theorem C91_one_line_refuted : forall low high cell sheet, autosize low high ([cell] :: sheet) = Err IndexError.
Proof. reflexivity. Qed.

(** Empty cells count as those with "None". *)
Theorem C91_empty_refuted : forall low high n, (low < 4 < high)%nat -> (2 <= n)%nat ->
  exists q, autosize low high [repeat None n] = Ok [Some q] /\ q == 9 # 2.
Proof.
  intros low high n [L H] N. unfold autosize_sheet_columns. cbn [mapM]. unfold column_width.
  destruct (get_one (repeat (@None value) n)) as (x & ->); [rewrite repeat_length; exact N|]. cbn [bind].
  assert (W : widest value str low (repeat None n) = 4%nat).
  { destruct (widest_largest value str (repeat None n) low) as (A & B & C).
    assert (I : In 4%nat (lengths (repeat None n))).
    { destruct n as [|n]; [lia|]. left. reflexivity. }
    specialize (B _ I). destruct C as [C|C]; [lia|]. apply in_map_iff in C as (c & E & J). apply repeat_spec in J. subst c. cbn in E. congruence. }
  rewrite W. cbn [Nat.ltb Nat.leb bind]. eexists. split; [reflexivity|]. destruct (half_bounded high 4) as [K _]. rewrite (K H). reflexivity.
Qed.

(** Without smallest width, columns of empty texts are left as they are. *)
Theorem C91_unset : forall high col, (2 <= List.length col)%nat -> (forall cell, In cell col -> shown value str cell = EmptyString) ->
  autosize 0 high [col] = Ok [None].
Proof.
  intros high col L E. unfold autosize_sheet_columns. cbn [mapM]. unfold column_width. destruct (get_one col L) as (x & ->). cbn [bind].
  assert (W : widest value str 0 col = 0%nat).
  { destruct (widest_largest value str col 0) as (A & B & [C|C]); [exact C|]. apply in_map_iff in C as (c & <- & I). rewrite (E c I). reflexivity. }
  rewrite W. reflexivity.
Qed.
End Props.

Print Assumptions C91_widths.
Print Assumptions C91_shown.
Print Assumptions C91_one_line_refuted.
Print Assumptions C91_empty_refuted.
Print Assumptions C91_unset.

(** ** Examples *)
Local Open Scope string_scope.
Definition ex_size low high (sheet : list (list (option string))) :=
  let* ws := autosize_sheet_columns string (fun s => s) low high sheet in Ok (map (option_map Qred) ws).
Example C91_widths_ex : ex_size 5 30 [[Some "Module"; Some "dessia_common.forms"]; [Some "a"; None]; [Some "a very long text in this cell, too long"; None]]
  = Ok [Some (39 # 2); Some (11 # 2); Some 30].
Proof. reflexivity. Qed.
Example C91_one_line_ex : ex_size 5 30 [[Some "Module"]; [Some "Class"]] = Err IndexError.
Proof. reflexivity. Qed.
Example C91_empty_ex : ex_size 1 30 [[None; None]] = Ok [Some (9 # 2)].
Proof. reflexivity. Qed.
Example C91_unset_ex : ex_size 0 30 [[Some ""; Some ""]] = Ok [None].
Proof. reflexivity. Qed.

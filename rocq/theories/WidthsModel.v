(** Model of the widths of columns of Excel sheets (/repo/dessia_common/exports.py:272-287).

    A sheet is the list of its columns, a column the list of its cells.  Widths are rationals; the width of a column that is
    not set is None. *)
From Coq Require Import ZArith QArith List Bool Arith String.
From Verif Require Import Base.
Import ListNotations.
Open Scope Q_scope.

Section Widths.
(** values of cells, and [str(value)] for those that are not None *)
Variable value : Type.
Variable str : value -> string.

(** [str(cell.value)], where None is for an empty cell *)
Definition shown (cell : option value) : string := match cell with Some v => str v | None => "None"%string end.
(** the loop over the cells, exports.py:279-284.  len and str never raise an AttributeError here. *)
Definition widest (width : nat) (col : list (option value)) : nat :=
  fold_left (fun width cell => if width <? String.length (shown cell) then String.length (shown cell) else width)%nat col width.
(** exports.py:276-287, for a column *)
Definition column_width (min_width max_width : nat) (col : list (option value)) : res (option Q) :=
  let* _ := py_get col 1 in
  let width := widest min_width col in
  if (0 <? width)%nat then
    let w := inject_Z (Z.of_nat width) + (1 # 2) in
    let m := inject_Z (Z.of_nat max_width) in
    Ok (Some (if Qlt_le_dec m w then m else w))
  else Ok None.
(** autosize_sheet_columns, exports.py:273-287 *)
Definition autosize_sheet_columns (min_width max_width : nat) (sheet : list (list (option value))) : res (list (option Q)) :=
  mapM (column_width min_width max_width) sheet.
End Widths.

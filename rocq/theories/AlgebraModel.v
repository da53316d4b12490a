(** Model of /repo/dessia_common/utils/algebra.py.

    Python integers are unbounded but their quotient [a / b] is a binary64 number:
    it is modelled as the correctly rounded quotient on 53 bits (the exponent range
    is not bounded: OverflowError above 2^1024 is left out).  [number ** 0.5] is a
    parameter [root], its integer part; [list(set(l))] lists the distinct elements
    of [l] in an order that is a parameter too. *)
From Coq Require Import ZArith List Bool.
From Verif Require Import Base.
Import ListNotations.
Open Scope Z_scope.

(** A binary number [m * 2^e] *)
Record bin := { mant : Z; expo : Z }.

(** The quotient [n / d] rounded to the nearest integer, to the even one on a tie *)
Definition round_even (n d : Z) : Z :=
  let q := n / d in
  let r := n mod d in
  if 2 * r <? d then q
  else if d <? 2 * r then q + 1
  else if Z.even q then q else q + 1.

(** [n * 2^(-e) / d] rounded *)
Definition scaled (a b e : Z) : Z :=
  if 0 <=? e then round_even a (b * 2 ^ e) else round_even (a * 2 ^ (- e)) b.

(** [a / b] for positive integers: 53 significant bits *)
Definition true_div (a b : Z) : bin :=
  let e := Z.log2 a - Z.log2 b - 53 in
  (* a / b * 2^-e is between 2^52 and 2^54; keep 53 bits *)
  let e' := if (if 0 <=? e then b * 2 ^ e * 2 ^ 53 <=? a else b * 2 ^ 53 <=? a * 2 ^ (- e))
            then e + 1 else e in
  {| mant := scaled a b e'; expo := e' |}.

(** [x.is_integer()] *)
Definition is_integer (x : bin) : bool :=
  (0 <=? expo x) || (mant x mod 2 ^ (- expo x) =? 0).

(** [int(x)] of a non-negative number *)
Definition to_int (x : bin) : Z :=
  if 0 <=? expo x then mant x * 2 ^ expo x else mant x / 2 ^ (- expo x).

Section Algebra.
Variable root : Z -> Z.                  (* int(number ** 0.5) *)
Variable as_list : list Z -> list Z.     (* list(set(l)) *)

(** [range(1, stop)] *)
Definition range_1 (stop : Z) : list Z := map (fun i => Z.of_nat i) (seq 1 (Z.to_nat (stop - 1))).

(** the factors, algebra.py:9-14 and 25-30 *)
Definition factors (number : Z) : list Z :=
  as_list (flat_map (fun i => if number mod i =? 0 then [i; number / i] else [])
                    (range_1 (root number + 1))).

(** [number2factor], algebra.py:7-21.  A negative number has a complex square root,
    whose [int] raises TypeError. *)
Definition number2factor (number : Z) : res (list (Z * Z)) :=
  if number <? 0 then Err TypeError
  else if negb (number =? 0) then
    Ok (flat_map (fun factor_x => if is_integer (true_div number factor_x)
                                  then [(factor_x, to_int (true_div number factor_x))] else [])
                 (factors number))
  else Ok [].

Definition set_eqb (a b : list Z) : bool :=
  forallb (fun x => existsb (Z.eqb x) b) a && forallb (fun x => existsb (Z.eqb x) a) b.

Definition triple_set (t : Z * Z * Z) : list Z := let '(a, b, c) := t in [a; b; c].

(** [get_incomplete_factors], algebra.py:44-57 *)
Definition get_incomplete_factors (number : Z) (factors : list Z) : list (Z * Z * Z) :=
  fst (fold_left (fun gs xy =>
         let value := true_div number (fst xy * snd xy) in
         if is_integer value then
           let grid := (fst xy, snd xy, to_int value) in
           if existsb (set_eqb (triple_set grid)) (snd gs) then gs
           else (fst gs ++ [grid], snd gs ++ [triple_set grid])
         else gs)
       (list_prod factors factors) ([], [])).

(** [number3factor], algebra.py:24-40 *)
Definition number3factor (number : Z) (complete : bool) : res (list (Z * Z * Z)) :=
  if number <? 0 then Err TypeError
  else if negb (number =? 0) then
    let factors := factors number in
    if negb complete then Ok (get_incomplete_factors number factors)
    else
      Ok (flat_map (fun xy => let value := true_div number (fst xy * snd xy) in
                              if is_integer value then [(fst xy, snd xy, to_int value)] else [])
                   (list_prod factors factors))
  else Ok [].
End Algebra.

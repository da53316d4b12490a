(** Proofs on the widths of columns. *)
From Coq Require Import ZArith QArith List Bool Arith String Lia Lqa.
From Verif Require Import Base BaseProofs WidthsModel WidthsSpec.
Import ListNotations.
Open Scope Q_scope.

Section Widths.
Variable value : Type.
Variable str : value -> string.
Notation lengths col := (map (fun cell => String.length (shown value str cell)) col).

Lemma widest_largest : forall col low, largest low (lengths col) (widest value str low col).
Proof.
  induction col as [|c col IH]; intros low; cbn [widest fold_left map].
  - split; [lia|]. split; [intros k []|]. left. reflexivity.
  - set (n := String.length (shown value str c)). destruct (Nat.ltb_spec low n) as [L|L].
    + destruct (IH n) as (A & B & C). unfold widest in *. split; [lia|]. split.
      * intros k [<-|I]; [exact A|apply B, I].
      * right. destruct C as [->|C]; [left; reflexivity|right; exact C].
    + destruct (IH low) as (A & B & C). unfold widest in *. split; [exact A|]. split.
      * intros k [<-|I]; [fold n; lia|apply B, I].
      * destruct C as [C|C]; [left; exact C|right; right; exact C].
Qed.

Lemma half_bounded high n : bounded_half high n
  (if Qlt_le_dec (inject_Z (Z.of_nat high)) (inject_Z (Z.of_nat n) + (1 # 2)) then inject_Z (Z.of_nat high) else inject_Z (Z.of_nat n) + (1 # 2)).
Proof.
  split; intros L; destruct (Qlt_le_dec _ _) as [H|H]; try reflexivity; exfalso.
  - assert (K : inject_Z (Z.of_nat n) + inject_Z 1 <= inject_Z (Z.of_nat high)) by (rewrite <- inject_Z_plus, <- Zle_Qle; lia).
    change (inject_Z 1) with 1 in K. lra.
  - assert (K : inject_Z (Z.of_nat high) <= inject_Z (Z.of_nat n)) by (rewrite <- Zle_Qle; lia). lra.
Qed.

Lemma get_one {A} (l : list A) : (2 <= List.length l)%nat -> exists x, py_get l 1 = Ok x.
Proof. destruct l as [|x [|y l]]; cbn; intros L; try lia. exists y. unfold py_get, py_index. cbn [List.length].
  destruct (Z.ltb_spec 1 (Z.of_nat (S (S (List.length l))))) as [K|K]; [|lia]. reflexivity. Qed.
End Widths.

(** Property C01: filter lists. *)
From Coq Require Import String QArith List Sorting.Sorted.
From Verif Require Import Base FiltersModel FiltersSpec FiltersProofs.
Import ListNotations.
Open Scope string_scope.

(** Here and below [accepts f o] unfolds to: the attribute named by the filter
    can be read on [o] and stands in the documented relation with the bound. *)

(** C01a: with 'and', the kept objects are, in order, exactly those accepted by
    every filter. *)
Theorem C01_filters_and :
  forall (O : Type) (get : O -> string -> res Q) fs os r,
    fs <> [] ->
    filters_list_apply O get (mkFiltersList fs "and") os = Ok r ->
    exists keep : O -> bool,
      r = filter keep os
      /\ forall o, In o os ->
         (keep o = true <->
          forall f, In f fs ->
            exists v, get o (attribute f) = Ok v
                      /\ compares (comparison_operator f) v (bound f)).
Proof. exact apply_and. Qed.
Print Assumptions C01_filters_and.

(** C01b: with 'or', those accepted by some filter. *)
Theorem C01_filters_or :
  forall (O : Type) (get : O -> string -> res Q) fs os r,
    fs <> [] ->
    filters_list_apply O get (mkFiltersList fs "or") os = Ok r ->
    exists keep : O -> bool,
      r = filter keep os
      /\ forall o, In o os ->
         (keep o = true <->
          exists f, In f fs
            /\ exists v, get o (attribute f) = Ok v
                      /\ compares (comparison_operator f) v (bound f)).
Proof. exact (fun O get fs os r => apply_or_like O get "or" fs os r (or_introl eq_refl)). Qed.
Print Assumptions C01_filters_or.

(** C01c (finding): 'xor' selects like 'or'. *)
Theorem C01_filters_xor_is_or :
  forall (O : Type) (get : O -> string -> res Q) fs os r,
    fs <> [] ->
    filters_list_apply O get (mkFiltersList fs "xor") os = Ok r ->
    exists keep : O -> bool,
      r = filter keep os
      /\ forall o, In o os ->
         (keep o = true <->
          exists f, In f fs
            /\ exists v, get o (attribute f) = Ok v
                      /\ compares (comparison_operator f) v (bound f)).
Proof. exact (fun O get fs os r => apply_or_like O get "xor" fs os r (or_intror eq_refl)). Qed.
Print Assumptions C01_filters_xor_is_or.

(** The documented example of core.py:1037-1041 announces [True, False, True, False]. *)
Theorem C01_xor_documentation_refuted :
  combine_booleans_lists [[true; true; false; false]; [false; true; true; false]] "xor"
    = Ok [true; true; true; false]
  /\ [true; true; true; false] <> [true; false; true; false].
Proof. split; [reflexivity|discriminate]. Qed.
Print Assumptions C01_xor_documentation_refuted.

(** C01d: selection succeeds whenever operators are known and attributes readable. *)
Theorem C01_filters_total :
  forall (O : Type) (get : O -> string -> res Q) fs lop os,
    In lop ["and"; "or"; "xor"] ->
    (forall f, In f fs -> In (comparison_operator f) known_operators) ->
    (forall f o, In f fs -> In o os -> exists v, get o (attribute f) = Ok v) ->
    exists r, filters_list_apply O get (mkFiltersList fs lop) os = Ok r.
Proof. exact apply_succeeds. Qed.
Print Assumptions C01_filters_total.

(** C01e: an unknown logical operator never succeeds; no filter keeps nothing. *)
Theorem C01_unknown_operator :
  forall (O : Type) (get : O -> string -> res Q) fs lop os r,
    ~ In lop ["and"; "or"; "xor"] ->
    filters_list_apply O get (mkFiltersList fs lop) os <> Ok r.
Proof. exact apply_unknown. Qed.
Print Assumptions C01_unknown_operator.

Theorem C01_no_filter_keeps_nothing :
  forall (O : Type) (get : O -> string -> res Q) lop os,
    In lop ["and"; "or"; "xor"] ->
    filters_list_apply O get (mkFiltersList [] lop) os = Ok [].
Proof. exact apply_empty. Qed.
Print Assumptions C01_no_filter_keeps_nothing.

(** C01f: the index list of a boolean list is the increasing list of its true positions. *)
Theorem C01_index_list :
  forall bs, StronglySorted lt (booleanlist_to_indexlist bs)
    /\ forall i, In i (booleanlist_to_indexlist bs) <-> nth_error bs i = Some true.
Proof. exact indexlist_spec. Qed.
Print Assumptions C01_index_list.

(** A concrete case meeting the hypotheses: two filters over three objects. *)
Example C01_example :
  let get (o : Q * Q) (a : string) :=
    if a =? "weight" then Ok (fst o) else if a =? "mpg" then Ok (snd o) else Err AttributeError in
  let fs := [mkFilter "weight" "<=" (1650 # 1); mkFilter "mpg" "ge" (45 # 1)] in
  let os := [(1613 # 1, 35 # 1); (2110 # 1, 46 # 1); (1600 # 1, 50 # 1)]%Q in
  filters_list_apply _ get (mkFiltersList fs "and") os = Ok [(1600 # 1, 50 # 1)]
  /\ filters_list_apply _ get (mkFiltersList fs "xor") os = Ok os.
Proof. split; reflexivity. Qed.

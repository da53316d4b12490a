(** Vocabulary for paths. *)
From Coq Require Import ZArith Bool String Ascii List.
From Verif Require Import Base PyValue PathsModel.
Import ListNotations.
Open Scope string_scope.
Open Scope list_scope.

(** Segments of a path: none has a '/', the first one starts with something else than
    '#' and '/'. *)
Definition no_slash (s : string) : Prop := ~ In "/"%char (list_ascii_of_string s).
Definition good_segments (segs : list string) : Prop :=
  Forall no_slash segs
  /\ exists c s rest, segs = String c s :: rest /\ c <> "#"%char /\ c <> "/"%char.
Definition path_of (segs : list string) : string := ("#/" ++ String.concat "/" segs)%string.

Section Paths.
Variable int_of : string -> option Z.
Variable isdigit : string -> bool.

(** [picks v s st w]: in [v], segment [s] designates the part [w], at step [st]. *)
Inductive picks : val -> string -> step -> val -> Prop :=
| pk_front v l s i w : seq_of v = Some l -> int_of s = Some (Z.of_nat i) -> nth_error l i = Some w -> picks v s (Idx i) w
| pk_back v l s i w : seq_of v = Some l -> int_of s = Some (Z.of_nat i - Z.of_nat (length l))%Z -> nth_error l i = Some w ->
    picks v s (Idx i) w
| pk_key d s w : In (KStr s, w) d -> picks (VDict d) s (Item (KStr s)) w
| pk_int d s z w : ~ In (KStr s) (map fst d) -> isdigit s = true -> int_of s = Some z -> In (KInt z, w) d ->
    picks (VDict d) s (Item (KInt z)) w
| pk_attr c d s w : In (KStr s, w) d -> picks (VObj c d) s (Item (KStr s)) w.

Inductive leads : val -> list string -> list step -> val -> Prop :=
| ld_here v : leads v [] [] v
| ld_down v s st w segs loc u : picks v s st w -> leads w segs loc u -> leads v (s :: segs) (st :: loc) u.

(** [slot v s st]: assigning to segment [s] of [v] changes [st]. *)
Inductive slot : val -> string -> step -> Prop :=
| sl_seq v s i w : picks v s (Idx i) w -> slot v s (Idx i)
| sl_key d s : slot (VDict d) s (Item (KStr s))
| sl_attr c d s : slot (VObj c d) s (Item (KStr s)).
Definition target (v : val) (segs : list string) (loc : list step) : Prop :=
  exists init s lp w st, segs = init ++ [s] /\ leads v init lp w /\ slot w s st /\ loc = lp ++ [st].
End Paths.

Definition is_prefix {A} (l m : list A) : Prop := exists ext, m = l ++ ext.

(** No reference anywhere. *)
Definition ref_free (v : val) : Prop :=
  everywhere (fun v => forall d, v = VDict d -> ~ In (KStr "$ref") (map fst d)) v.

(** What may be put before the segments. *)
Definition leading (p : string) : Prop := p = "" \/ p = "/" \/ p = "#/".

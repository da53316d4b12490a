(** C06: reading and writing parts of a value by path. *)
From Coq Require Import ZArith Lia Bool String Ascii List.
From Verif Require Import Base BaseProofs PyValue PathsModel PathsSpec PathsProofs.
Import ListNotations.
Open Scope string_scope.
Open Scope list_scope.

Lemma leading_ok p : leading p -> stripped p = true /\ (p = "" \/ exists a, p = (a ++ "/")%string).
Proof. intros [->|[->| ->]]; split; auto; right; [exists ""|exists "#"]; reflexivity. Qed.

Section C06.
Variable int_of : string -> option Z.
Variable isdigit : string -> bool.
Notation get_in := (get_in_object_from_path int_of isdigit).
Notation set_in := (set_in_object_from_path int_of isdigit).
Notation leads := (leads int_of isdigit).
Notation target := (target int_of isdigit).

(** Reading a path gives the part its segments lead to, if they lead somewhere. *)
Theorem C06_get : forall n root p segs w ep, wf_val root -> leading p -> good_segments segs -> (ep = true -> ref_free root) ->
  get_in (S n) root (p ++ String.concat "/" segs) ep = Ok w <-> exists loc, leads root segs loc w.
Proof.
  intros n root p segs w ep W P G RF. apply leading_ok in P. destruct P as [P _].
  unfold get_in_object_from_path. rewrite segments_good by auto. rewrite get_walk by auto. split.
  - destruct (walk int_of isdigit root segs) as [[l u]|e] eqn:K; simpl; [|discriminate]. intros E; inversion E; subst.
    exists l. apply walk_leads; auto.
  - intros [loc L]. apply walk_leads in L; auto. rewrite L. reflexivity.
Qed.

(** What has been written at a path is what is read there. *)
Theorem C06_get_after_set : forall n root p q segs x root', leading p -> leading q -> good_segments segs ->
  set_in (S n) root (p ++ String.concat "/" segs) x false = Ok root' ->
  forall m, get_in (S m) root' (q ++ String.concat "/" segs) false = Ok x.
Proof.
  intros n root p q segs x root' P Q G H m. apply leading_ok in P, Q. destruct P as [P P'], Q as [Q _].
  destruct (exists_last (good_nonempty _ G)) as [init [s ->]].
  rewrite set_in_at in H by (auto; discriminate). apply (set_get int_of isdigit) in H. destruct H as [loc L].
  unfold get_in_object_from_path. rewrite segments_good by auto. rewrite get_walk by discriminate. rewrite L. reflexivity.
Qed.

(** Parts that neither contain nor lie inside the part written are the same as before,
    where they were: unless the path written led elsewhere than where it writes. *)
Theorem C06_frame : forall n root p ps x root' tloc, wf_val root -> leading p -> good_segments ps ->
  set_in (S n) root (p ++ String.concat "/" ps) x false = Ok root' ->
  target root ps tloc -> (forall loc u, leads root ps loc u -> loc = tloc) ->
  forall m q qs lq w, leading q -> good_segments qs -> leads root qs lq w -> ~ is_prefix tloc lq -> ~ is_prefix lq tloc ->
    get_in (S m) root' (q ++ String.concat "/" qs) false = Ok w.
Proof.
  intros n root p ps x root' tloc W P G H T A m q qs lq w Q GQ L N1 N2. apply leading_ok in P, Q. destruct P as [P P'], Q as [Q _].
  destruct (exists_last (good_nonempty _ G)) as [init [s ->]].
  rewrite set_in_at in H by (auto; discriminate).
  unfold get_in_object_from_path. rewrite segments_good by auto. rewrite get_walk by discriminate.
  apply walk_leads in L; auto.
  rewrite (frame int_of isdigit init root s x root' tloc qs lq w); auto.
  intros loc u K. apply walk_leads in K; auto. eauto.
Qed.

(** A part that contains the part written becomes that part with the rest of the path
    written in it. *)
Theorem C06_above : forall n root p qs rest x root' m q w, leading p -> leading q ->
  good_segments (qs ++ rest) -> good_segments qs -> good_segments rest ->
  set_in (S n) root (p ++ String.concat "/" (qs ++ rest)) x false = Ok root' ->
  get_in (S m) root (q ++ String.concat "/" qs) false = Ok w ->
  exists w', set_in (S n) w (p ++ String.concat "/" rest) x false = Ok w'
             /\ get_in (S m) root' (q ++ String.concat "/" qs) false = Ok w'.
Proof.
  intros n root p qs rest x root' m q w P Q G GQ GR H R. apply leading_ok in P, Q. destruct P as [P P'], Q as [Q _].
  destruct (exists_last (good_nonempty _ GR)) as [init [s ->]]. rewrite app_assoc in *.
  rewrite set_in_at in H by (auto; discriminate). unfold get_in_object_from_path in *. rewrite segments_good in * by auto.
  rewrite get_walk in * by discriminate.
  destruct (walk int_of isdigit root qs) as [[lq u]|e] eqn:K; cbn [bind snd] in R; [|discriminate]. inversion R; subst.
  destruct (set_above int_of isdigit qs root init s x root' lq w H K) as [w' [S1 S2]].
  exists w'. rewrite set_in_at by (auto; discriminate). split; auto. rewrite S2. reflexivity.
Qed.

(** Of two writings at a path the second alone counts. *)
Theorem C06_set_twice : forall n root p segs x y root', leading p -> good_segments segs ->
  set_in (S n) root (p ++ String.concat "/" segs) x false = Ok root' ->
  set_in (S n) root' (p ++ String.concat "/" segs) y false = set_in (S n) root (p ++ String.concat "/" segs) y false.
Proof.
  intros n root p segs x y root' P G H. apply leading_ok in P. destruct P as [P P'].
  destruct (exists_last (good_nonempty _ G)) as [init [s ->]].
  rewrite set_in_at in H by (auto; discriminate).
  rewrite !set_in_at by (auto; discriminate). eapply set_twice; eauto.
Qed.

(** Without references, evaluating pointers or not is the same. *)
Theorem C06_no_references : forall n root p segs x, ref_free root -> leading p -> good_segments segs ->
  get_in (S n) root (p ++ String.concat "/" segs) true = get_in (S n) root (p ++ String.concat "/" segs) false
  /\ set_in (S n) root (p ++ String.concat "/" segs) x true = set_in (S n) root (p ++ String.concat "/" segs) x false.
Proof.
  intros n root p segs x RF P G. apply leading_ok in P. destruct P as [P P']. split.
  - unfold get_in_object_from_path. rewrite segments_good by auto. rewrite !get_walk by (auto; discriminate). reflexivity.
  - destruct (exists_last (good_nonempty _ G)) as [init [s ->]]. rewrite !set_in_at by (auto; discriminate). reflexivity.
Qed.

(** A path going through a reference reads what the same path from the designated place
    reads, when that place does not hold a reference itself. *)
Theorem C06_through_reference : forall n root ps d ts q qs v,
  good_segments ps -> good_segments ts -> Forall no_slash (q :: qs) ->
  get_in (S n) root (path_of ps) true = Ok (VDict d) -> lookup (KStr "$ref") d = Some (VStr (path_of ts)) ->
  get_in n root (path_of ts) true = Ok v -> (forall d', v = VDict d' -> ~ In (KStr "$ref") (map fst d')) ->
  get_in (S n) root (path_of (ps ++ q :: qs)) true = get_in (S n) root (path_of (ts ++ q :: qs)) true.
Proof.
  intros n root ps d ts q qs v GP GT NQ H1 L H2 R. unfold get_in_object_from_path in *. rewrite segments_path in * by auto.
  assert (E : forall l, good_segments l -> segments (path_of (l ++ q :: qs)) = l ++ q :: qs).
  { intros l [F [c [s [rest [-> D]]]]]. apply segments_path. split; [apply Forall_app; auto|]. exists c, s, (rest ++ q :: qs). auto. }
  rewrite !E by auto.
  destruct (get_at int_of isdigit (S n) true root ps) as [[lv u]|e] eqn:G1; cbn [bind snd] in H1; [|discriminate]. inversion H1; subst.
  destruct (get_at int_of isdigit n true root ts) as [[lt u]|e] eqn:G2; cbn [bind snd] in H2; [|discriminate]. inversion H2; subst.
  rewrite (through_ref int_of isdigit n root ps d (path_of ts) q qs lv lt v); auto.
  - rewrite segments_path by auto. reflexivity.
  - rewrite segments_path by auto. auto.
  - destruct v; auto. simpl. specialize (R _ eq_refl). destruct (has_key ref_marker d0) eqn:K; auto. apply has_key_In in K. contradiction.
Qed.

(** A reference is followed only when the path goes further down: a path that meets none
    before its end reads what is there, be it a reference. *)
Theorem C06_ends_at_reference : forall n root p segs loc w, wf_val root -> leading p -> good_segments segs ->
  leads root segs loc w ->
  (forall init rest l d, segs = init ++ rest -> rest <> [] -> leads root init l (VDict d) -> ~ In (KStr "$ref") (map fst d)) ->
  get_in (S n) root (p ++ String.concat "/" segs) true = Ok w.
Proof.
  intros n root p segs loc w W P G L NR. apply leading_ok in P. destruct P as [P _].
  unfold get_in_object_from_path. rewrite segments_good by auto. clear P G. apply walk_leads in L; auto.
  assert (K : get_at int_of isdigit (S n) true root segs = Ok (loc, w)).
  { revert loc w L NR. induction segs as [|s init IH] using rev_ind; intros loc w L NR.
    - simpl in L. inversion L; subst. reflexivity.
    - rewrite (get_snoc int_of isdigit n true root init [s]). rewrite walk_app in L.
      destruct (walk int_of isdigit root init) as [[li u]|e] eqn:WI; cbn [bind] in L; [|discriminate].
      rewrite (IH li u eq_refl).
      + cbn [bind foldM snd fst] in *. assert (E : match u with
              | VDict d0 => match lookup ref_marker d0 with
                            | None => Ok (li, u)
                            | Some (VStr t0) => get_at int_of isdigit n true root (segments t0)
                            | Some _ => Err AttributeError
                            end
              | _ => Ok (li, u) end = Ok (li, u)).
        { destruct u; auto. assert (LN : lookup ref_marker d = None).
          { apply lookup_None. apply (NR init [s] li d); auto; [discriminate|]. apply walk_leads; auto. }
          rewrite LN. reflexivity. }
        rewrite E. cbn [bind snd fst]. simpl in L. destruct (find int_of isdigit u s) as [[st z]|e]; cbn [bind snd fst] in *; [|discriminate].
        inversion L; subst. reflexivity.
      + intros i r l d -> N. apply (NR i (r ++ [s]) l d); [rewrite app_assoc; auto|]. destruct r; discriminate. }
  rewrite K. reflexivity.
Qed.
End C06.

(** ** A python-like [int] and [isdigit] on plain digits, for the examples *)
Definition digit (c : ascii) : option Z :=
  let n := Z.of_nat (nat_of_ascii c) in if (48 <=? n)%Z && (n <=? 57)%Z then Some (n - 48)%Z else None.
Fixpoint digits (acc : Z) (s : string) : option Z :=
  match s with
  | EmptyString => Some acc
  | String c s' => match digit c with Some d => digits (10 * acc + d) s' | None => None end
  end.
Definition ex_int (s : string) : option Z :=
  match s with
  | EmptyString => None
  | String "-" EmptyString => None
  | String "-" s' => option_map Z.opp (digits 0 s')
  | _ => digits 0 s
  end.
Definition ex_isdigit (s : string) : bool :=
  match s with EmptyString => false | _ => match digits 0 s with Some _ => true | None => false end end.
Notation get_ex := (get_in_object_from_path ex_int ex_isdigit).
Notation set_ex := (set_in_object_from_path ex_int ex_isdigit).

(** A path with '#' just before its only segment is not written where it is read. *)
Theorem C06_get_after_set_refuted :
  exists root root' x, set_ex 1 root "#a" x false = Ok root' /\ get_ex 1 root' "#a" false <> Ok x.
Proof.
  exists (VDict [(KStr "a", VInt 0)]), (VDict [(KStr "a", VInt 0); (KStr "#a", VInt 1)]), (VInt 1).
  split; [reflexivity|discriminate].
Qed.

(** Writing where an integer key is read leaves that entry as it was and adds one. *)
Theorem C06_integer_key_refuted :
  exists root root' x, set_ex 1 root "#/1" x false = Ok root' /\ get_ex 1 root "#/1" false = Ok (VInt 0)
    /\ root = VDict [(KInt 1, VInt 0)] /\ root' = VDict [(KInt 1, VInt 0); (KStr "1", x)].
Proof. eexists _, _, (VInt 5). repeat split; reflexivity. Qed.

(** A reference to a reference is not followed, though the second one is when the path
    starts from it. *)
Theorem C06_chained_references_refuted :
  exists root, get_ex 9 root "#/b/x" true = Ok (VInt 1) /\ get_ex 9 root "#/a" true = Ok (VDict [(KStr "$ref", VStr "#/b")])
    /\ forall n, get_ex (S (S n)) root "#/a/x" true = Err ExtractionError.
Proof.
  exists (VDict [(KStr "a", VDict [(KStr "$ref", VStr "#/b")]); (KStr "b", VDict [(KStr "$ref", VStr "#/c")]);
                 (KStr "c", VDict [(KStr "x", VInt 1)])]).
  split; [reflexivity|]. split; [reflexivity|]. intros n. reflexivity.
Qed.

(** A reference through itself ends with a RecursionError, however deep the stack. *)
Theorem C06_circular_reference :
  exists root, forall n, get_ex n root "#/a/x" true = Err RecursionError.
Proof.
  exists (VDict [(KStr "a", VDict [(KStr "$ref", VStr "#/a/x")])]). intros n.
  unfold get_in_object_from_path. change (segments "#/a/x") with ["a"; "x"].
  assert (E : get_at ex_int ex_isdigit n true (VDict [(KStr "a", VDict [(KStr "$ref", VStr "#/a/x")])]) ["a"; "x"] = Err RecursionError).
  { induction n as [|n IH]; [reflexivity|]. cbn -[segments]. change (segments "#/a/x") with ["a"; "x"]. rewrite IH. reflexivity. }
  rewrite E. reflexivity.
Qed.

Print Assumptions C06_get.
Print Assumptions C06_get_after_set.
Print Assumptions C06_frame.
Print Assumptions C06_above.
Print Assumptions C06_set_twice.
Print Assumptions C06_no_references.
Print Assumptions C06_through_reference.
Print Assumptions C06_ends_at_reference.
Print Assumptions C06_get_after_set_refuted.
Print Assumptions C06_integer_key_refuted.
Print Assumptions C06_chained_references_refuted.
Print Assumptions C06_circular_reference.

Definition ex_root := VObj "Car" [(KStr "wheels", VList [VDict [(KStr "r", VInt 3)]; VDict [(KStr "r", VInt 4); (KInt 7, VInt 1)]]);
                                  (KStr "spare", VDict [(KStr "$ref", VStr "#/wheels/1")])].
Example ex_good : good_segments ["wheels"; "-1"; "r"].
Proof.
  split; [|exists "w"%char, "heels", ["-1"; "r"]; repeat split; discriminate].
  repeat constructor; unfold no_slash; simpl; intuition discriminate.
Qed.
Example ex_get : get_ex 1 ex_root "#/wheels/-1/r" false = Ok (VInt 4) /\ get_ex 1 ex_root "wheels/1/7" false = Ok (VInt 1)
  /\ get_ex 2 ex_root "#/spare/r" true = Ok (VInt 4) /\ get_ex 2 ex_root "#/wheels/5/r" false = Err IndexError.
Proof. repeat split. Qed.
Example ex_set : exists root', set_ex 1 ex_root "#/wheels/-1/r" (VInt 9) false = Ok root'
  /\ get_ex 1 root' "wheels/1/r" false = Ok (VInt 9) /\ get_ex 1 root' "wheels/0/r" false = Ok (VInt 3)
  /\ get_ex 1 root' "wheels/1/7" false = Ok (VInt 1) /\ set_ex 1 root' "#/wheels/1/r" (VInt 4) false = Ok ex_root.
Proof. eexists. repeat split. Qed.
(** the hypotheses of the frame theorem at this writing *)
Example ex_frame : exists tloc, target ex_int ex_isdigit ex_root ["wheels"; "-1"; "r"] tloc
  /\ (forall loc u, leads ex_int ex_isdigit ex_root ["wheels"; "-1"; "r"] loc u -> loc = tloc)
  /\ exists lq, leads ex_int ex_isdigit ex_root ["wheels"; "1"; "7"] lq (VInt 1) /\ ~ is_prefix tloc lq /\ ~ is_prefix lq tloc.
Proof.
  assert (W : wf_val ex_root).
  { unfold ex_root. repeat (econstructor; simpl; try (intuition discriminate)). }
  exists [Item (KStr "wheels"); Idx 1; Item (KStr "r")]. split; [|split].
  - exists ["wheels"; "-1"], "r", [Item (KStr "wheels"); Idx 1], (VDict [(KStr "r", VInt 4); (KInt 7, VInt 1)]), (Item (KStr "r")).
    split; [reflexivity|]. split; [|split; [constructor|reflexivity]]. apply walk_leads; auto.
  - intros loc u L. apply walk_leads in L; auto. vm_compute in L. inversion L. reflexivity.
  - exists [Item (KStr "wheels"); Idx 1; Item (KInt 7)]. split; [apply walk_leads; auto|].
    split; intros [e E]; discriminate.
Qed.

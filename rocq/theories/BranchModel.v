(** Model of the branches of a workflow: display and export of single blocks, display
    of a step of a form (dessia_common/workflow/core.py). *)
From Coq Require Import String Bool Arith List.
From Verif Require Import Base ExecModel.
Import ListNotations.

Section Branch.
Context {V : Type}.
Variable w : workflow.
Variable default : nat -> option V.
Variable lock_flag : nat -> bool.
Variable type_ok : nat -> V -> bool.
Variable evaluate : nat -> list V -> res (list V).
Variable set_order : nat -> list nat -> list nat.

Notation state := (state V).
Notation runtime_blocks := (runtime_blocks w default lock_flag set_order).
Notation upstream_blocks := (upstream_blocks w default lock_flag set_order).
Notation activable_blocks := (activable_blocks w default lock_flag set_order).
Notation activate_inputs := (activate_inputs w default lock_flag type_ok).

(** workflow/core.py:895-897 *)
Definition is_block_secondary (b : nat) : res bool :=
  let* rt := runtime_blocks in Ok (negb (memb Nat.eqb b rt)).

(** workflow/core.py:899-901 *)
Definition has_upstream_block (b : nat) : res bool :=
  let* us := upstream_blocks b in Ok (match us with [] => false | _ => true end).

Section Loop.
Variable condition : nat -> res bool.
Variable include_last : bool.

(** The [for] loop of workflow/core.py:910-915; gives the branch and the candidates. *)
Fixpoint scan (ups branch candidates : list nat) : res (list nat * list nat) :=
  match ups with
  | [] => Ok (branch, candidates)
  | u :: ups' =>
    let* c := condition u in
    if c then let* us := upstream_blocks u in scan ups' (u :: branch) (candidates ++ us)
    else scan ups' (if include_last then u :: branch else branch) candidates
  end.

(** The [while] loop of workflow/core.py:908-917; [n] is the number of rounds still
    allowed by [i <= len(self.blocks)]. *)
Fixpoint branch_loop (n : nat) (ups candidates branch : list nat) : res (list nat) :=
  match candidates, n with
  | [], _ => Ok branch
  | _, 0 => Ok branch
  | _, S n' =>
    let* r := scan ups branch [] in
    branch_loop n' (filter (fun b => negb (memb Nat.eqb b (fst r))) (snd r)) (snd r) (fst r)
  end.

(** workflow/core.py:903-918 *)
Definition branch_blocks (b : nat) : res (list nat) :=
  let* us := upstream_blocks b in
  branch_loop (S (length (blocks w))) us us [b].
End Loop.

(** workflow/core.py:970-986: pipes are given by their index. *)
Definition block_incoming_pipes (b : block) : list (option nat) :=
  map (fun v => option_map fst (variable_input_pipe w v)) (b_in b).
Definition block_outgoing_pipes (b : block) : list nat :=
  flat_map (fun v => map fst (variable_output_pipes w v)) (b_out b).
Definition pipes_between_blocks (u d : block) : list nat :=
  filter (fun p => existsb (fun q => match q with Some q => Nat.eqb p q | None => false end)
                     (block_incoming_pipes d)) (block_outgoing_pipes u).

(** The pipes that one branch block makes memorized, workflow/core.py:930-934. *)
Definition memorized_for (n : nat) : res (list nat) :=
  let* us := upstream_blocks n in
  let* rt := runtime_blocks in
  let* bn := of_option IndexError (nth_error (blocks w) n) in
  let* pss := mapM (fun u => if memb Nat.eqb u rt then
                               let* bu := of_option IndexError (nth_error (blocks w) u) in
                               Ok (pipes_between_blocks bu bn)
                             else Ok []) us in
  Ok (concat pss).

(** workflow/core.py:920-935: the branch, and the pipes whose flag [memorize] is set. *)
Definition secondary_branch_blocks (b : nat) : res (list nat * list nat) :=
  let* br := branch_blocks is_block_secondary false b in
  let* pss := mapM memorized_for br in
  Ok (br, concat pss).

(** workflow/core.py:1011-1012 *)
Definition upstream_branch (b : nat) : res (list nat) :=
  branch_blocks has_upstream_block true b.

(** workflow/core.py:988-1003: the "available" and "nonblock" lists of
    block_upstream_variables. *)
Fixpoint open_variables (ins : list nat) : res (list nat * list nat) :=
  match ins with
  | [] => Ok ([], [])
  | v :: ins' =>
    match upstream_variable w v with
    | None =>
      let* l := locked default lock_flag v in
      let* r := open_variables ins' in
      Ok (if l then r else (v :: fst r, snd r))
    | Some u =>
      if mem u (nonblock_variables w) then
        let* l := locked default lock_flag u in
        let* r := open_variables ins' in
        Ok (if l then r else (fst r, u :: snd r))
      else open_variables ins'
    end
  end.

(** workflow/core.py:1034-1046; the order of the final set is not modelled. *)
Definition upstream_inputs (v : nat) : res (list nat) :=
  let* b := block_from_variable w v in
  let* br := upstream_branch b in
  let* rs := mapM (fun n => let* bn := of_option IndexError (nth_error (blocks w) n) in
                            let* r := open_variables (b_in bn) in
                            Ok (fst r ++ snd r)) br in
  Ok (dedup Nat.eqb [] (concat rs)).

(** ** Evaluation of a branch *)

(** workflow/core.py:2039-2068, with the tuple of outputs it returns. *)
Definition evaluate_block_values (b : nat) (s : state) : res (state * list V) :=
  match nth_error (blocks w) b with
  | None => Err IndexError
  | Some bl =>
    let* r := read_inputs w (b_in bl) s in
    let* ys := evaluate b (snd r) in
    let* s' := activate_block w b (b_out bl) ys (log_block b (fst r)) in
    Ok (s', ys)
  end.

(** A dictionary block -> outputs, latest value first in insertion order. *)
Definition results := list (nat * list V).
Definition lookup (b : nat) (ev : results) : option (list V) :=
  option_map snd (find (fun p => Nat.eqb (fst p) b) ev).
Fixpoint store (b : nat) (ys : list V) (ev : results) : results :=
  match ev with
  | [] => [(b, ys)]
  | p :: ev' => if Nat.eqb (fst p) b then (b, ys) :: ev' else p :: store b ys ev'
  end.

(** One round of the [while] loop of evaluate_branch: evaluates [bs] in order. *)
Fixpoint evaluate_all (bs : list nat) (s : state) (ev : results) : res (state * results) :=
  match bs with
  | [] => Ok (s, ev)
  | b :: bs' =>
    let* r := evaluate_block_values b s in
    evaluate_all bs' (fst r) (store b (snd r) ev)
  end.

Fixpoint branch_rounds (n : nat) (bs : list nat) (s : state) (ev : results) : res (state * results) :=
  match n with
  | 0 => Ok (s, ev)
  | S n' =>
    if Nat.eqb (length ev) (length bs) then Ok (s, ev)
    else
      let* act := activable_blocks s in
      let next := filter (fun b => memb Nat.eqb b act
                                   && match lookup b ev with Some _ => false | None => true end) bs in
      let* r := evaluate_all next s ev in
      branch_rounds n' bs (fst r) (snd r)
  end.

(** workflow/core.py:1971-1987.  The arguments [block_args] only reach
    [block.evaluate] (the path of a display); they are not modelled. *)
Definition evaluate_branch (bs : list nat) (s : state) : res (state * results) :=
  let* s1 := activate_inputs false s in
  let* act := activable_blocks s1 in
  if existsb (fun b => memb Nat.eqb b act) bs
  then branch_rounds (S (length bs)) bs s1 []
  else Err WorkflowError.

(** ** Display and export *)
(** [displays]: blocks with display settings, in order (workflow/core.py:646-649);
    [exports]: blocks with an export format (679-682); [selector]: block_selector
    (workflow/core.py:614-634). *)
Variable displays exports : list nat.
Variable selector : nat -> string.

Fixpoint set_branch (k : string) (br : list nat) (d : list (string * list nat)) : list (string * list nat) :=
  match d with
  | [] => [(k, br)]
  | p :: d' => if String.eqb (fst p) k then (k, br) :: d' else p :: set_branch k br d'
  end.
Definition get_branch (k : string) (d : list (string * list nat)) : option (list nat) :=
  option_map snd (find (fun p => String.eqb (fst p) k) d).

(** workflow/core.py:636-643 *)
Definition branch_by_selector (bs : list nat) : res (list (string * list nat)) :=
  foldM (fun d b => let* r := secondary_branch_blocks b in Ok (set_branch (selector b) (fst r) d)) bs [].

(** [memorized_pipes], workflow/core.py:435-438, after the constructor: the pipe into
    the first input of each display block (463-468, blocks.py:696), and those of the
    branches of display and export blocks (400-401). *)
Definition memorized_pipes : res (list nat) :=
  let* first := mapM (fun b => let* bl := of_option IndexError (nth_error (blocks w) b) in
                               Ok (match b_in bl with
                                   | v :: _ => match variable_input_pipe w v with Some ip => [fst ip] | None => [] end
                                   | [] => []
                                   end)) displays in
  let* rest := mapM (fun b => let* r := secondary_branch_blocks b in Ok (snd r)) (displays ++ exports) in
  Ok (concat first ++ concat rest).

(** workflow/core.py:1890-1913 (with activate_inputs first) and 2108-2117 (without):
    the first output of the block.  Indices are non negative. *)
Definition show (known : list nat) (b : nat) (s : state) : res (V * state) :=
  if b <? length (blocks w) then
    let* d := branch_by_selector known in
    let* br := of_option KeyError (get_branch (selector b) d) in
    let* r := evaluate_branch br s in
    let* ys := of_option WorkflowError (lookup b (snd r)) in
    let* y := of_option IndexError (nth_error ys 0) in
    Ok (y, fst r)
  else Err IndexError.
Definition block_display (b : nat) (s : state) : res (V * state) :=
  let* s1 := activate_inputs false s in show displays b s1.
Definition export (b : nat) (s : state) : res (V * state) := show exports b s.

(** to_workflow_run, workflow/core.py:2084-2091, and the constructor of WorkflowRun
    (2140-2146): it keeps the values of memorized pipes only, then activates the inputs
    again (1671).  The dictionary of flags, shared with the state, is copied here. *)
Definition workflow_run (s : state) : res state :=
  let* memo := memorized_pipes in
  activate_inputs false (mkState (s_iv s) (s_var s) (s_blk s)
    (fun p => if memb Nat.eqb p memo then s_pipe s p else None) (s_out s) (evaluated s)).
Definition to_workflow_run (s : state) : res state :=
  let* c := completed w default lock_flag set_order s in
  if c then workflow_run s else Err ValueError.

(** Display of a step of a form, workflow/core.py:1532-1547: evaluates the branch of a
    variable in a new state and gives its value.  [user]: values given by index. *)
Definition step_display (v : nat) (user : list (nat * V)) : res V :=
  let* a := variable_indices w v in
  match a with
  | ANbv _ => Err TypeError
  | APort _ false _ => Err ValueError
  | APort b true k =>
    let* br := upstream_branch b in
    let* iv := input_values w default lock_flag user in
    let* s := start_run w default lock_flag type_ok iv in
    let* r := evaluate_branch br s in
    let* ys := of_option KeyError (lookup b (snd r)) in
    of_option IndexError (nth_error ys k)
  end.

(** Sessions with displays. *)
Inductive request := Do (a : action V) | Display (b : nat) | Export (b : nat).

Definition serve (sr : state * list (nat * V)) (q : request) : res (state * list (nat * V)) :=
  match q with
  | Do a => let* s := act w default lock_flag type_ok evaluate set_order (fst sr) a in Ok (s, snd sr)
  | Display b => let* r := block_display b (fst sr) in Ok (snd r, snd sr ++ [(b, fst r)])
  | Export b => let* r := export b (fst sr) in Ok (snd r, snd sr ++ [(b, fst r)])
  end.

Definition session (iv : nat -> option V) (qs : list request) : res (state * list (nat * V)) :=
  let* s0 := start_run w default lock_flag type_ok iv in foldM serve qs (s0, []).

End Branch.
Arguments Do {V} a.
Arguments Display {V} b.
Arguments Export {V} b.

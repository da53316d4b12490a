(** Model of the copy, the serialisation and the comparison of workflow states and
    workflow runs (dessia_common/workflow/core.py). *)
From Coq Require Import String Bool ZArith Arith List.
From Verif Require Import Base ExecModel BranchModel.
Import ListNotations.

Section State.
Context {V D : Type}.
Variable w : workflow.
Variable default : nat -> option V.
Variable lock_flag : nat -> bool.
Variable type_ok : nat -> V -> bool.
Variable evaluate : nat -> list V -> res (list V).
Variable set_order : nat -> list nat -> list nat.
Variable displays exports : list nat.
Variable selector : nat -> string.

(** [serialize] or [serialize_with_pointers] of one value, and [deserialize]; that values
    share parts by pointers is not modelled here. *)
Variable ser : V -> res D.
Variable deser : D -> res V.
(** [is_file_related] of the type of a variable (workflow/core.py:133-137), and
    [is_file_or_file_sequence] of a value. *)
Variable file_input : nat -> bool.
Variable file_value : V -> bool.
(** [value is None], [==] and [choose_hash] on values; hash of None; hash of the workflow. *)
Variable is_none : V -> bool.
Variable veq : V -> V -> bool.
Variable vhash : V -> Z.
Variable none_hash wf_hash : Z.

Notation state := (state V).
Notation activate_inputs := (activate_inputs w default lock_flag type_ok).
Notation memorized_pipes := (memorized_pipes w default lock_flag set_order displays exports).
Notation workflow_run := (workflow_run w default lock_flag type_ok set_order displays exports).

(** A WorkflowState, or a WorkflowRun if [is_run].  [pflag] are the flags of pipes given
    to the constructor; later, a pipe is flagged when it gets a value (workflow/core.py:1989-1993). *)
Record wstate := mkWS { core : state; pflag : nat -> bool; is_run : bool }.

Definition has {A} (x : option A) : bool := match x with Some _ => true | None => false end.
Definition pipe_flag (x : wstate) (p : nat) : bool := pflag x p || has (s_pipe (core x) p).

(** The constructors, workflow/core.py:1648-1673 and 2140-2146. *)
Definition construct (run : bool) (s : state) (flags : nat -> bool) : res wstate :=
  let* s' := if run then workflow_run s else activate_inputs false s in Ok (mkWS s' flags run).

(** ** Copy, workflow/core.py:1675-1702 *)
(** The variables, blocks and pipes of the copied workflow are identified with those at
    the same address of the workflow; values are not copied, and items are taken in the
    order of the workflow rather than of the dictionaries. *)
Definition copied_values (s : state) : res (nat -> option V) :=
  foldM (fun m (ip : nat * (nat * nat)) =>
           match s_pipe s (fst ip) with
           | None => Ok m
           | Some x =>
             let* u := variable_indices w (fst (snd ip)) in
             let* d := variable_indices w (snd (snd ip)) in
             let* q := pipe_from_variable_indices w u d in
             Ok (upd m q (Some x))
           end) (enumerate (pipes w)) (fun _ => None).

Definition copied_flags (s : state) : res (nat -> bool) :=
  foldM (fun m v => let* a := variable_indices w v in
                    let* u := variable_from_index w a in
                    Ok (upd m u (s_var s v))) (variables w) (fun _ => false).

Definition copy (x : wstate) : res wstate :=
  let s := core x in
  let* values := copied_values s in
  let* vars := copied_flags s in
  construct (is_run x)
    (mkState (s_iv s) vars (fun b => (b <? length (blocks w)) && s_blk s b) values (s_out s) (evaluated s))
    (fun p => (p <? length (pipes w)) && pipe_flag x p).

(** ** Serialisation *)
Record sdict := mkDict {
  d_iv : list (nat * D);
  d_out : option D;
  d_values : list (nat * D);
  d_blocks : list nat;
  d_pipes : list nat;
  d_vars : list address;
  d_log : list nat;
  d_run : bool }.

(** workflow/core.py:1748-1818.  Items in the order of the workflow; the log, the name and the
    workflow (C41) are left out, [d_log] is the order of the blocks in the execution info. *)
Definition saved_inputs (s : state) : res (list (nat * D)) :=
  let* l := mapM (fun iv : nat * nat =>
                    match s_iv s (fst iv) with
                    | Some x => if file_input (snd iv) then Ok [] else let* d := ser x in Ok [(fst iv, d)]
                    | None => Ok []
                    end) (enumerate (inputs w)) in
  Ok (concat l).

Definition saved_values (use_pointers : bool) (memo : list nat) (s : state) : res (list (nat * D)) :=
  let* l := mapM (fun p =>
                    match s_pipe s p with
                    | Some x =>
                      if negb (file_value x) && memb Nat.eqb p memo then
                        match ser x with
                        | Ok d => Ok [(p, d)]
                        | Err SerializationError => if use_pointers then Ok [] else Err SerializationError
                        | Err e => Err e
                        end
                      else Ok []
                    | None => Ok []
                    end) (seq 0 (length (pipes w))) in
  Ok (concat l).

Definition to_dict (use_pointers : bool) (x : wstate) : res sdict :=
  let s := core x in
  let* log := mapM (fun b => if b <? length (blocks w) then Ok b else Err KeyError) (evaluated s) in
  let* iv := saved_inputs s in
  let* out := match s_out s with
              | Some y => if is_none y then Ok None else let* d := ser y in Ok (Some d)
              | None => Ok None
              end in
  let* memo := memorized_pipes in
  let* values := saved_values use_pointers memo s in
  let* vars := mapM (variable_indices w) (filter (s_var s) (variables w)) in
  Ok (mkDict iv out values (filter (s_blk s) (seq 0 (length (blocks w))))
        (filter (pipe_flag x) (seq 0 (length (pipes w)))) vars log (is_run x)).

(** workflow/core.py:1820-1856; keys of dictionaries are numbers. *)
Definition dict_to_object (d : sdict) : res wstate :=
  let* out := match d_out d with Some y => let* v := deser y in Ok (Some v) | None => Ok None end in
  let* values := foldM (fun m (pd : nat * D) =>
                          if fst pd <? length (pipes w) then
                            let* v := deser (snd pd) in Ok (upd m (fst pd) (Some v))
                          else Err IndexError) (d_values d) (fun _ => None) in
  let* iv := foldM (fun m (id : nat * D) => let* v := deser (snd id) in Ok (upd m (fst id) (Some v)))
               (d_iv d) (fun _ => None) in
  let* vars := foldM (fun m v => let* a := variable_indices w v in
                                 Ok (upd m v (memb address_eqb a (d_vars d)))) (variables w) (fun _ => false) in
  let* log := mapM (fun b => if b <? length (blocks w) then Ok b else Err KeyError) (d_log d) in
  construct (d_run d)
    (mkState iv vars (fun b => (b <? length (blocks w)) && memb Nat.eqb b (d_blocks d)) values out log)
    (fun p => (p <? length (pipes w)) && memb Nat.eqb p (d_pipes d)).

(** ** Comparison *)
(** workflow/core.py:1704-1709 *)
Definition opt_hash (x : option V) : Z := match x with Some y => vhash y | None => none_hash end.
Definition sum_inputs (s : state) : Z :=
  fold_right Z.add 0%Z (map (fun i => match s_iv s i with Some x => Z.of_nat i * vhash x | None => 0 end)%Z
                          (seq 0 (length (inputs w)))).
Definition state_hash (x : wstate) : Z :=
  ((wf_hash + opt_hash (s_out (core x)) + sum_inputs (core x)
    + Z.of_nat (length (filter (fun p => has (s_pipe (core x) p)) (seq 0 (length (pipes w))))) * 7)
   mod 1000000000)%Z.

(** [==] on values that may be absent, read as None. *)
Definition opt_eq (a b : option V) : bool :=
  match a, b with
  | Some x, Some y => veq x y
  | Some x, None | None, Some x => is_none x
  | None, None => true
  end.

(** __eq__, core.py:116-129, and _data_eq, workflow/core.py:1711-1741, for two states of one
    workflow, equal to itself. *)
Definition state_eq (x y : wstate) : res bool :=
  if negb (Z.eqb (state_hash x) (state_hash y)) then Ok false
  else if negb (Bool.eqb (is_run x) (is_run y)) then Ok false
  else
    let* p := progress w default lock_flag set_order (core x) in
    let* q := progress w default lock_flag set_order (core y) in
    Ok (Nat.eqb (fst p) (fst q)
        && opt_eq (s_out (core x)) (s_out (core y))
        && forallb (fun iv : nat * nat => opt_eq (s_iv (core x) (fst iv)) (s_iv (core y) (fst iv)) || file_input (snd iv))
             (enumerate (inputs w))
        && forallb (fun nb : nat * block =>
                      Bool.eqb (s_blk (core x) (fst nb)) (s_blk (core y) (fst nb))
                      && forallb (fun v => Bool.eqb (s_var (core x) v) (s_var (core y) v)) (b_in (snd nb) ++ b_out (snd nb)))
             (enumerate (blocks w))
        && forallb (fun p => Bool.eqb (pipe_flag x p) (pipe_flag y p)) (seq 0 (length (pipes w)))).

(** ** Lives of a state *)
Inductive op :=
| Serve (q : request (V := V))          (* an action, a display, an export *)
| Copy
| Reload (use_pointers : bool)          (* to_dict, then dict_to_object *)
| ToRun.                                (* to_workflow_run, workflow/core.py:2084-2091 *)

Definition step (x : wstate) (o : op) : res wstate :=
  match o with
  | Serve q =>
    let* r := serve w default lock_flag type_ok evaluate set_order displays exports selector (core x, []) q in
    Ok (mkWS (fst r) (pflag x) (is_run x))
  | Copy => copy x
  | Reload p => let* d := to_dict p x in dict_to_object d
  | ToRun =>
    let* c := completed w default lock_flag set_order (core x) in
    if c then construct true (core x) (pipe_flag x) else Err ValueError
  end.

Definition life (iv : nat -> option V) (ops : list op) : res wstate :=
  let* s := start_run w default lock_flag type_ok iv in foldM step ops (mkWS s (fun _ => false) false).
End State.
Arguments mkDict {D}.

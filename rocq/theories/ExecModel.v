(** Model of workflow structure and execution (dessia_common/workflow/core.py). *)
From Coq Require Import List Bool Arith.
From Verif Require Import Base.
Import ListNotations.

(** Variables, blocks and pipes are compared by identity (workflow/core.py:49, 180
    and 261: [_eq_is_data_eq = False]).  A variable is a number; a block or a pipe
    is designated by its position in [blocks] or [pipes]. *)
Notation var := nat (only parsing).

(** workflow/core.py:176-205 *)
Record block := mkBlock { b_in : list var; b_out : list var }.

(** workflow/core.py:370-409.  A pipe is the pair (input_variable, output_variable). *)
Record workflow := mkWf { blocks : list block; pipes : list (var * var); output : option var }.

Definition mem (v : var) (l : list var) : bool := memb Nat.eqb v l.

Definition enumerate {A} (l : list A) : list (nat * A) := combine (seq 0 (length l)) l.

(** ** Structure *)

(** handle_block, workflow/core.py:453-461 *)
Definition block_variables (w : workflow) : list var :=
  flat_map (fun b => b_in b ++ b_out b) (blocks w).

(** handle_pipe, workflow/core.py:440-451; state is (variables, nonblock_variables). *)
Definition handle_pipe (s : list var * list var) (p : var * var) : list var * list var :=
  let add v (s : list var * list var) :=
    if mem v (fst s) then s else (fst s ++ [v], snd s ++ [v]) in
  add (snd p) (add (fst p) s).

Definition handle_pipes (w : workflow) : list var * list var :=
  fold_left handle_pipe (pipes w) (block_variables w, []).
Definition variables (w : workflow) : list var := fst (handle_pipes w).
Definition nonblock_variables (w : workflow) : list var := snd (handle_pipes w).

(** [len(nx.ancestors(graph, v)) != 0] for the graph of workflow/core.py:861-874:
    edges input->block, block->output, and pipes.  networkx leaves the node itself
    out of its ancestors. *)
Definition has_ancestor (w : workflow) (v : var) : bool :=
  existsb (fun b => mem v (b_out b)) (blocks w)
  || existsb (fun p => Nat.eqb (snd p) v && negb (Nat.eqb (fst p) v)) (pipes w).

(** workflow/core.py:385 *)
Definition inputs (w : workflow) : list var :=
  filter (fun v => negb (has_ancestor w v)) (variables w).

(** workflow/core.py:951-957; the pipe is given with its index. *)
Definition variable_input_pipe (w : workflow) (v : var) : option (nat * (var * var)) :=
  find (fun ip => Nat.eqb (snd (snd ip)) v) (enumerate (pipes w)).

(** workflow/core.py:959-961 *)
Definition variable_output_pipes (w : workflow) (v : var) : list (nat * (var * var)) :=
  filter (fun ip => Nat.eqb (fst (snd ip)) v) (enumerate (pipes w)).

(** workflow/core.py:1023-1032 *)
Definition upstream_variable (w : workflow) (v : var) : option var :=
  option_map (fun ip => fst (snd ip)) (variable_input_pipe w v).

(** workflow/core.py:1014-1021 *)
Definition get_upstream_nbv (w : workflow) (v : var) : var :=
  match nonblock_variables w with
  | [] => v
  | _ => match upstream_variable w v with
         | Some u => if mem u (nonblock_variables w) then u else v
         | None => v
         end
  end.

(** Addresses: an int, or (block index, 0 input / 1 output, port index). *)
Inductive address := ANbv (n : nat) | APort (b : nat) (is_output : bool) (k : nat).

Fixpoint find_port (i : nat) (bs : list block) (v : var) : option address :=
  match bs with
  | [] => None
  | b :: bs' =>
    match index_of Nat.eqb v (b_in b) with
    | Some k => Some (APort i false k)
    | None => match index_of Nat.eqb v (b_out b) with
              | Some k => Some (APort i true k)
              | None => find_port (S i) bs' v
              end
    end
  end.

(** workflow/core.py:1048-1066, for a variable that is not None. *)
Definition variable_indices (w : workflow) (v : var) : res address :=
  match find_port 0 (blocks w) v with
  | Some a => Ok a
  | None =>
    match index_of Nat.eqb (get_upstream_nbv w v) (nonblock_variables w) with
    | Some n => Ok (ANbv n)
    | None => Err WorkflowError
    end
  end.

(** workflow/core.py:845-851 (non negative indices) *)
Definition variable_from_index (w : workflow) (a : address) : res var :=
  match a with
  | ANbv n => of_option IndexError (nth_error (nonblock_variables w) n)
  | APort b o k =>
    let* bl := of_option IndexError (nth_error (blocks w) b) in
    of_option IndexError (nth_error (if o then b_out bl else b_in bl) k)
  end.

Definition address_eqb (a b : address) : bool :=
  match a, b with
  | ANbv n, ANbv m => Nat.eqb n m
  | APort b o k, APort b' o' k' => Nat.eqb b b' && Bool.eqb o o' && Nat.eqb k k'
  | _, _ => false
  end.

(** workflow/core.py:937-945; gives the index of the pipe. *)
Definition pipe_from_variable_indices (w : workflow) (u d : address) : res nat :=
  (fix go ips :=
     match ips with
     | [] => Err ValueError
     | ip :: ips' =>
       let* a := variable_indices w (fst (snd ip)) in
       if address_eqb a u then
         let* b := variable_indices w (snd (snd ip)) in
         if address_eqb b d then Ok (fst ip) else go ips'
       else go ips'
     end) (enumerate (pipes w)).

(** workflow/core.py:1073-1076; unpacking an int address raises TypeError. *)
Definition block_from_variable (w : workflow) (v : var) : res nat :=
  let* a := variable_indices w v in
  match a with APort b _ _ => Ok b | ANbv _ => Err TypeError end.

(** workflow/core.py:1091-1096 *)
Definition input_index (w : workflow) (v : var) : option nat :=
  index_of Nat.eqb (get_upstream_nbv w v) (inputs w).

(** ** Execution *)
Section Exec.
Context {V : Type}.
Variable w : workflow.
(** default value and lock flag of each variable (workflow/core.py:51-89) *)
Variable default : var -> option V.
Variable lock_flag : var -> bool.
(** whether a value passes [value_type_check] against the type of a variable
    (workflow/core.py:2356-2369, called at 2012-2021; TypeError otherwise) *)
Variable type_ok : var -> V -> bool.
(** [block.evaluate]: from the values of its inputs in order, the tuple of
    output values, or an exception.  Assumed to depend on its inputs only. *)
Variable evaluate : nat -> list V -> res (list V).
(** order in which [list(set(...))] enumerates the upstream blocks of a block *)
Variable set_order : nat -> list nat -> list nat.

(** workflow/core.py:62-69 *)
Definition locked (v : var) : res bool :=
  if lock_flag v then match default v with Some _ => Ok true | None => Err ValueError end
  else Ok false.

(** workflow/core.py:982-1009: the "wired" list of block_upstream_variables, then
    upstream_blocks.  Reading [locked] can raise. *)
Fixpoint wired (ins : list var) : res (list var) :=
  match ins with
  | [] => Ok []
  | v :: ins' =>
    match upstream_variable w v with
    | None => let* _ := locked v in wired ins'
    | Some u =>
      if mem u (nonblock_variables w) then let* _ := locked u in wired ins'
      else let* r := wired ins' in Ok (u :: r)
    end
  end.

Definition upstream_blocks (b : nat) : res (list nat) :=
  match nth_error (blocks w) b with
  | None => Err IndexError
  | Some bl =>
    let* us := wired (b_in bl) in
    let* bs := mapM (block_from_variable w) us in
    Ok (set_order b (dedup Nat.eqb [] bs))
  end.

(** workflow/core.py:876-893.  [levels] is the while loop, [n] the number of
    iterations still allowed by [i <= len(self.blocks)]. *)
Fixpoint levels (n : nat) (ups acc : list nat) : res (list nat) :=
  match ups, n with
  | [], _ => Ok acc
  | _, 0 => Ok acc
  | _, S n' =>
    let* nexts := mapM upstream_blocks ups in
    let block_ups := concat nexts in
    levels n' block_ups
      (fold_left (fun a c => if memb Nat.eqb c a then a else a ++ [c]) block_ups acc)
  end.

Definition runtime_blocks : res (list nat) :=
  match output w with
  | None => Err TypeError                     (* unpacking None *)
  | Some o =>
    let* ob := block_from_variable w o in
    let* ups := upstream_blocks ob in
    levels (S (length (blocks w))) ups (ob :: ups)
  end.

(** State of an execution (workflow/core.py:1648-1673).  [activated_items] is
    split in variables and blocks (the flag of a pipe is set exactly when its value
    is, workflow/core.py:1989-1993); [evaluated] is the sequence of blocks recorded
    in [execution_info.before_block_memory_usage]. *)
Record state := mkState {
  s_iv : nat -> option V;
  s_var : var -> bool;
  s_blk : nat -> bool;
  s_pipe : nat -> option V;
  s_out : option V;
  evaluated : list nat }.

Definition upd {A} (f : nat -> A) (k : nat) (x : A) : nat -> A :=
  fun j => if Nat.eqb j k then x else f j.

Definition set_iv i x s := mkState (upd (s_iv s) i (Some x)) (s_var s) (s_blk s) (s_pipe s) (s_out s) (evaluated s).
Definition set_var v s := mkState (s_iv s) (upd (s_var s) v true) (s_blk s) (s_pipe s) (s_out s) (evaluated s).
Definition set_blk b s := mkState (s_iv s) (s_var s) (upd (s_blk s) b true) (s_pipe s) (s_out s) (evaluated s).
Definition set_pipe p x s := mkState (s_iv s) (s_var s) (s_blk s) (upd (s_pipe s) p (Some x)) (s_out s) (evaluated s).
Definition set_out x s := mkState (s_iv s) (s_var s) (s_blk s) (s_pipe s) (Some x) (evaluated s).
Definition log_block b s := mkState (s_iv s) (s_var s) (s_blk s) (s_pipe s) (s_out s) (evaluated s ++ [b]).

Definition is_output (v : var) : bool :=
  match output w with Some o => Nat.eqb o v | None => false end.

(** workflow/core.py:1989-1993 and 2003-2010: _activate_pipe and _activate_variable.  The fuel
    stands for python's recursion limit; it exceeds the length of every chain of
    pipes without repetition. *)
Fixpoint activate_variable (fuel : nat) (v : var) (x : V) (s : state) : res state :=
  match fuel with
  | 0 => Err RecursionError
  | S f =>
    let s1 := if is_output v then set_out x s else s in
    let* s2 := foldM (fun s ip => activate_variable f (snd (snd ip)) x (set_pipe (fst ip) x s))
                 (variable_output_pipes w v) s1 in
    Ok (set_var v s2)
  end.

Definition fuel : nat := S (length (pipes w)).

Definition activate_pipe (ip : nat * (var * var)) (x : V) (s : state) : res state :=
  activate_variable fuel (snd (snd ip)) x (set_pipe (fst ip) x s).

(** workflow/core.py:1995-2001; [zip] stops at the shorter list. *)
Definition activate_block (b : nat) (outs : list var) (ys : list V) (s : state) : res state :=
  let* s' := foldM (fun s ox => activate_variable fuel (fst ox) (snd ox) s) (combine outs ys) s in
  Ok (set_blk b s').

(** workflow/core.py:2012-2021.  [input_index] of a workflow input is a number. *)
Definition activate_input (v : var) (x : V) (s : state) : res state :=
  if type_ok v x then
    match input_index w v with
    | None => Err KeyError                     (* not reachable for inputs *)
    | Some i =>
      let* s1 := activate_variable fuel v x (set_iv i x s) in
      foldM (fun s ip => activate_pipe ip x s) (variable_output_pipes w v) s1
    end
  else Err TypeError.

(** workflow/core.py:2070-2082 *)
Definition activate_inputs (check_all : bool) (s : state) : res state :=
  foldM (fun s iv =>
           let (i, v) := iv : nat * var in
           match s_iv s i with
           | Some x => activate_input v x s
           | None =>
             let* l := locked v in               (* [has_default_value | locked] *)
             match default v with
             | Some d => activate_input v d s
             | None => if check_all then Err ValueError else Ok s
             end
           end) (enumerate (inputs w)) s.

(** workflow/core.py:2032-2037 *)
Definition block_activable_by_inputs (b : nat) (s : state) : bool :=
  match nth_error (blocks w) b with
  | Some bl => forallb (s_var s) (b_in bl)
  | None => false
  end.

(** workflow/core.py:2023-2030 *)
Definition activable_blocks (s : state) : res (list nat) :=
  let* rt := runtime_blocks in
  Ok (filter (fun b => block_activable_by_inputs b s
                       && (negb (s_blk s b) || negb (memb Nat.eqb b rt)))
        (seq 0 (length (blocks w)))).

(** Reading the inputs of a block, first half of workflow/core.py:2039-2060. *)
Definition read_input (v : var) (s : state) : res V :=
  match variable_input_pipe w v with
  | None => let* i := of_option KeyError (input_index w v) in of_option KeyError (s_iv s i)
  | Some ip => of_option KeyError (s_pipe s (fst ip))
  end.

Fixpoint read_inputs (ins : list var) (s : state) : res (state * list V) :=
  match ins with
  | [] => Ok (s, [])
  | v :: ins' =>
    let* x := read_input v s in
    let* s1 := activate_variable fuel v x s in
    let* r := read_inputs ins' s1 in
    Ok (fst r, x :: snd r)
  end.

(** workflow/core.py:2039-2068; the progress computation at the end only reads. *)
Definition evaluate_block (b : nat) (s : state) : res state :=
  match nth_error (blocks w) b with
  | None => Err IndexError
  | Some bl =>
    let* r := read_inputs (b_in bl) s in
    let* ys := evaluate b (snd r) in
    activate_block b (b_out bl) ys (log_block b (fst r))
  end.

(** workflow/core.py:1928-1941 *)
Definition block_evaluation (b : nat) (s : state) : res (bool * state) :=
  if b <? length (blocks w) then
    let* s1 := activate_inputs false s in
    let* act := activable_blocks s1 in
    if memb Nat.eqb b act then let* s2 := evaluate_block b s1 in Ok (true, s2)
    else Ok (false, s1)
  else Err IndexError.

(** workflow/core.py:1943-1951 *)
Definition evaluate_next_block (s : state) : res (option nat * state) :=
  let* s1 := activate_inputs false s in
  let* act := activable_blocks s1 in
  match act with
  | [] => Ok (None, s1)
  | b :: _ => let* r := block_evaluation b s1 in Ok (Some b, snd r)
  end.

(** workflow/core.py:1953-1969 *)
Fixpoint run_loop (n : nat) (s : state) : res state :=
  match n with
  | 0 => Err OutOfFuel
  | S n' =>
    let* rt := runtime_blocks in
    let* act := activable_blocks s in
    match filter (fun b => memb Nat.eqb b act) rt with
    | [] => Ok s
    | bs => let* s' := foldM (fun s b => let* r := block_evaluation b s in Ok (snd r)) bs s in
            run_loop n' s'
    end
  end.

(** Two more rounds than there are blocks; that this is enough is a theorem. *)
Definition continue_run (s : state) : res state :=
  let* s1 := activate_inputs false s in
  run_loop (S (S (length (blocks w)))) s1.

(** workflow/core.py:1915-1926, [progress == 1] *)
Definition completed (s : state) : res bool :=
  let* rt := runtime_blocks in Ok (forallb (s_blk s) rt).

(** number of evaluated runtime blocks / number of runtime blocks *)
Definition progress (s : state) : res (nat * nat) :=
  let* rt := runtime_blocks in
  Ok (length (filter (s_blk s) rt), length rt).

(** Workflow.start_run, workflow/core.py:1266-1268 and 1648-1673 *)
Definition start_run (iv : nat -> option V) : res state :=
  activate_inputs false (mkState iv (fun _ => false) (fun _ => false) (fun _ => None) None []).

(** workflow/core.py:833-834 *)
Definition default_values (i : nat) : option V :=
  match nth_error (inputs w) i with Some v => default v | None => None end.

(** workflow/core.py:1227-1233.  [user] lists the given values by index (dict
    without duplicate key, non negative indices). *)
Definition input_values (user : list (nat * V)) : res (nat -> option V) :=
  let* allowed := mapM (fun ix => let* v := of_option IndexError (nth_error (inputs w) (fst ix)) in
                                  let* l := locked v in Ok (l, ix)) user in
  Ok (fold_left (fun m (lix : bool * (nat * V)) =>
                   if fst lix then m else upd m (fst (snd lix)) (Some (snd (snd lix))))
        allowed default_values).

(** workflow/core.py:1235-1264 and to_workflow_run 2084-2091 (the WorkflowRun
    made from the completed state is modelled in BranchModel.v). *)
Definition run (user : list (nat * V)) : res state :=
  let* iv := input_values user in
  let* s0 := start_run iv in
  let* s1 := activate_inputs true s0 in
  let* s2 := continue_run s1 in
  let* c := completed s2 in
  if c then Ok s2 else Err ValueError.

(** workflow/core.py:1858-1860: no check of the lock. *)
Definition add_input_value (i : nat) (x : V) (s : state) : res state :=
  let* v := of_option IndexError (nth_error (inputs w) i) in
  activate_input v x s.

(** Interactive actions on a state (_allowed_methods, workflow/core.py:1644-1645). *)
Inductive action :=
| AddInput (i : nat) (x : V)
| EvalBlock (b : nat)
| EvalNext
| Continue.

Definition act (s : state) (a : action) : res state :=
  match a with
  | AddInput i x => add_input_value i x s
  | EvalBlock b => let* r := block_evaluation b s in Ok (snd r)
  | EvalNext => let* r := evaluate_next_block s in Ok (snd r)
  | Continue => continue_run s
  end.

Definition interactive (iv : nat -> option V) (acts : list action) : res state :=
  let* s0 := start_run iv in foldM act acts s0.

End Exec.

Arguments state V : clear implicits.
Arguments action V : clear implicits.

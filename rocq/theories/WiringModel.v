(** Model of the serialisation and of the copy of the wiring of a workflow
    (dessia_common/workflow/core.py). *)
From Coq Require Import Bool Arith List.
From Verif Require Import Base ExecModel VariablesModel.
Import ListNotations.

(** ** Serialisation *)

(** pipe_variable_indices and Workflow.to_dict, workflow/core.py:947-949 and
    757-776: the addresses written for the pipes and for the output. *)
Definition serialized_pipes (w : workflow) : res (list (address * address)) :=
  mapM (fun p => let* a := variable_indices w (fst p) in
                 let* b := variable_indices w (snd p) in Ok (a, b)) (pipes w).

Definition serialized_output (w : workflow) : res (option address) :=
  match output w with
  | None => Ok None
  | Some o => let* a := variable_indices w o in Ok (Some a)
  end.

(** deserialize_pipes, workflow/core.py:2324-2353, given the deserialised blocks and
    non block variables.  The side of a port is not read: a source port is an output
    and a target port an input.  The type reset of the hotfix is not modelled. *)
Definition source_of (bs : list block) (nbvs : list nat) (a : address) : res nat :=
  match a with
  | ANbv n => of_option IndexError (nth_error nbvs n)
  | APort b _ k => let* bl := of_option IndexError (nth_error bs b) in
                   of_option IndexError (nth_error (b_out bl) k)
  end.
Definition target_of (bs : list block) (nbvs : list nat) (a : address) : res nat :=
  match a with
  | ANbv n => of_option IndexError (nth_error nbvs n)
  | APort b _ k => let* bl := of_option IndexError (nth_error bs b) in
                   of_option IndexError (nth_error (b_in bl) k)
  end.
Definition deserialize_pipes (bs : list block) (nbvs : list nat) (ps : list (address * address))
  : res (list (nat * nat)) :=
  mapM (fun p => let* s := source_of bs nbvs (fst p) in
                 let* t := target_of bs nbvs (snd p) in Ok (s, t)) ps.

(** The output, workflow/core.py:2317-2320; an int address is not subscriptable. *)
Definition deserialize_output (bs : list block) (a : option address) : res (option nat) :=
  match a with
  | None => Ok None
  | Some (ANbv _) => Err TypeError
  | Some (APort b _ k) => let* bl := of_option IndexError (nth_error bs b) in
                          let* o := of_option IndexError (nth_error (b_out bl) k) in Ok (Some o)
  end.

(** Blocks and variables come back as new objects: [f] maps each variable to the
    variable built from its serialisation. *)
Definition rename_block (f : nat -> nat) (b : block) : block := mkBlock (map f (b_in b)) (map f (b_out b)).

(** to_dict then initialize_workflow, workflow/core.py:757-776 and 2302-2321
    (detached variables are left out). *)
Definition rebuild (f : nat -> nat) (w : workflow) : res workflow :=
  let* ps := serialized_pipes w in
  let* o := serialized_output w in
  let bs := map (rename_block f) (blocks w) in
  let* ps' := deserialize_pipes bs (map f (nonblock_variables w)) ps in
  let* o' := deserialize_output bs o in
  Ok (mkWf bs ps' o').

(** ** Copy *)

(** workflow/core.py:1069-1071 *)
Definition is_variable_nbv (w : workflow) (v : nat) : res bool :=
  let* a := variable_indices w v in Ok (match a with ANbv _ => true | APort _ _ _ => false end).

(** copy_pipe, copy_nbv_pipe and copy_pipes, workflow/core.py:578-614.  The state is
    the memo of copied non block variables, keyed by their index in [variables], and
    the identity the next new variable receives. *)
Definition copy_pipe (w copied : workflow) (s : list (nat * nat) * nat) (p : nat * nat)
  : res ((list (nat * nat) * nat) * (nat * nat)) :=
  let* nbv := is_variable_nbv w (fst p) in
  if nbv then
    let* i := of_option ValueError (index_of Nat.eqb (fst p) (variables w)) in
    let '(s', u) :=
      match find (fun e => Nat.eqb (fst e) i) (fst s) with
      | Some e => (s, snd e)
      | None => (((i, snd s) :: fst s, S (snd s)), snd s)
      end in
    let* b := variable_indices w (snd p) in
    let* t := variable_from_index copied b in
    Ok (s', (u, t))
  else
    let* a := variable_indices w (fst p) in
    let* u := variable_from_index copied a in
    let* b := variable_indices w (snd p) in
    let* t := variable_from_index copied b in
    Ok (s, (u, t)).

Fixpoint copy_pipes (w copied : workflow) (s : list (nat * nat) * nat) (ps : list (nat * nat))
  : res (list (nat * nat)) :=
  match ps with
  | [] => Ok []
  | p :: ps' =>
    let* r := copy_pipe w copied s p in
    let* l := copy_pipes w copied (fst r) ps' in
    Ok (snd r :: l)
  end.

(** __deepcopy__, workflow/core.py:531-561: blocks are copied with fresh ports [f],
    [next] is the first identity available for copies of non block variables. *)
Definition deepcopy (f : nat -> nat) (next : nat) (w : workflow) : res workflow :=
  let bs := map (rename_block f) (blocks w) in
  let* o := serialized_output w in
  let* o' := deserialize_output bs o in
  let unpiped := mkWf bs [] o' in
  let* ps := copy_pipes w unpiped ([], next) (pipes w) in
  Ok (mkWf bs ps o').

(** copy_step, workflow/core.py:563-576: the inputs and group inputs of a copied
    step.  [groups] are the group inputs of the step. *)
Definition copy_step (w copied : workflow) (ins groups : list nat) : res (list nat * list nat) :=
  let* ins' := mapM (fun v => let* a := variable_indices w v in variable_from_index copied a) ins in
  Ok (ins', map snd (filter (fun vu => mem (fst vu) groups) (combine ins ins'))).

(** The lock loop at the end of __deepcopy__, workflow/core.py:557-561.  [vars] and
    [vars'] give the variables of both workflows. *)
Definition copy_locks {V L} (ins ins' : list nat) (vars : nat -> variable V L)
    (vars' : nat -> variable V L) : res (nat -> variable V L) :=
  foldM (fun m iv =>
           let* l := is_locked (vars (snd iv)) in
           if (l : bool) then
             let* u := of_option IndexError (nth_error ins' (fst iv)) in
             let r := lock (v_default (vars (snd iv))) (m u) in
             match snd r with
             | None => Ok (upd m u (fst r))
             | Some e => Err e
             end
           else Ok m) (enumerate ins) vars'.

(** What a workflow needs to be saved, and what comes back when it is read. *)
From Coq Require Import ZArith Bool String Ascii Arith List.
From Verif Require Import Base ExecModel ExecSpec WiringSpec VariablesModel ScriptModel ScriptSpec SavedModel.
Import ListNotations.
Open Scope string_scope.
Open Scope list_scope.

(** The text holds no dot. *)
Definition undotted (s : string) : Prop := ~ In "."%char (list_ascii_of_string s).

Section Spec.
Context {V J : Type}.
Notation variable := (variable V tag).
Notation wf := (wf V).
Notation part := (part V).
Notation wdict := (wdict J).
Variable params : cls -> string -> list (VariablesModel.variable V string).
Variable text : string -> V.
Variable ser : V -> res J.
Variable des : J -> res V.
Notation conf_ports := (conf_ports params text).

(** ** Workflows *)

(** Names of classes hold no dot, the name of a ModelMethod and the file name of an
    Export are not empty: their constructors replace empty ones. *)
Definition regular (c : conf) (name : string) : Prop :=
  match c with
  | CInstantiate k | CClassMethod k _ | CGetAttribute k _ | CSetAttribute k _ | CView _ k _ _ => undotted (c_name k)
  | CModelMethod k _ => undotted (c_name k) /\ name <> ""
  | CExport k _ f _ _ => undotted (c_name k) /\ f <> ""
  | _ => True
  end.

(** A well formed workflow at every level, whose blocks have as many ports as their
    constructors give them, and whose steps are about its variables. *)
Fixpoint sound (w : wf) : Prop :=
  match w with
  | Wf d _ ps ss _ _ _ _ =>
      well_formed d /\ all2 fits ps (blocks d)
      /\ (forall s, In s ss -> incl (st_inputs s) (variables d) /\ incl (st_group_inputs s) (variables d))
  end
with fits (p : part) (b : block) : Prop :=
  match p with
  | Part k name _ =>
    match k with
    | KConf c => regular c name /\ length (b_in b) = length (fst (ports params text c))
                 /\ length (b_out b) = length (snd (ports params text c))
    | KWorkflow w => sound w /\ output (diagram w) <> None
        /\ length (b_in b) = length (inputs (diagram w)) /\ length (b_out b) = 1
    | KForEach w ins outs _ _ i => sound w /\ output (diagram w) <> None
        /\ length ins = length (inputs (diagram w)) /\ length outs = 1 /\ i < length ins
        /\ length (b_in b) = length ins /\ length (b_out b) = 1
    end
  end.

(** All the variables of a workflow, at every level. *)
Fixpoint all_variables (w : wf) : list variable :=
  match w with
  | Wf d info ps _ det _ _ _ => map info (variables d) ++ det ++ flat_map part_variables ps
  end
with part_variables (p : part) : list variable :=
  match p with
  | Part k _ _ =>
    match k with
    | KConf _ => []
    | KWorkflow w => all_variables w
    | KForEach w ins outs _ _ _ => ins ++ outs ++ all_variables w
    end
  end.

(** A locked variable has a default value, and a default value can be serialised. *)
Definition writable (x : variable) : Prop :=
  (v_lock x = true -> v_default x <> None) /\ (forall v, v_default x = Some v -> exists j, ser v = Ok j).

(** The default values that can be serialised are read as they were. *)
Definition recovered (l : list variable) : Prop :=
  forall x v j, In x l -> v_default x = Some v -> ser v = Ok j -> des j = Ok v.

(** No input of a WorkflowBlock or of a ForEach is unlocked when the one it stands for is
    locked, but the one a ForEach iterates over. *)
Fixpoint keeps_locks (w : wf) : Prop :=
  match w with
  | Wf d info ps _ _ _ _ _ =>
      all2 (fun p b => part_keeps_locks p (map info (b_in b)) (map info (b_out b))) ps (blocks d)
  end
with part_keeps_locks (p : part) (ins outs : list variable) : Prop :=
  match p with
  | Part k _ _ =>
    match k with
    | KConf _ => True
    | KWorkflow w => keeps_locks w
        /\ all2 (fun v x => v_lock (info w v) = true -> v_lock x = true) (inputs (diagram w)) ins
        /\ (forall o x, output (diagram w) = Some o -> In x outs -> v_lock (info w o) = true -> v_lock x = true)
    | KForEach w bins bouts _ _ i => keeps_locks w
        /\ all2 (fun v x => v_lock (info w v) = true -> v_lock x = true) (inputs (diagram w)) bins
        /\ (forall o x, output (diagram w) = Some o -> In x bouts -> v_lock (info w o) = true -> v_lock x = true)
        /\ (forall k x y, k <> i -> nth_error bins k = Some x -> nth_error ins k = Some y -> v_lock x = true -> v_lock y = true)
    end
  end.

(** ** What comes back *)

(** Deprecated displays are read without the configuration of their ports. *)
Definition deprecated (p : part) : bool :=
  match p with
  | Part (KConf (COldView _ _ _)) _ _ | Part (KConf (COldMultiPlot _ _)) _ _ => true
  | _ => false
  end.

(** The ports the constructor of a block makes. *)
Definition constructed (p : part) : res (list variable * list variable) :=
  match p with
  | Part (KConf c) _ _ => Ok (conf_ports c)
  | Part (KWorkflow w) n _ => wfblock_ports w n
  | Part (KForEach _ ins _ _ _ i) _ _ => foreach_ports ins i
  end.

(** The port [x] of a block comes back as [z], given the one [y] that the constructor
    makes: with its default value and its label, under the name of [y].  It is locked if
    it was, and, unless [exact], if [y] is. *)
Definition port_back (exact old : bool) (x y z : variable) : Prop :=
  z = if old then y
      else mkVar (v_default x) (if exact then v_lock x else v_lock x || v_lock y)
                 (mkTag (t_name (v_label y)) (t_label (v_label x)) (t_pos (v_label y))).
(** for lists of ports *)
Inductive ports_back (exact old : bool) : list variable -> list variable -> list variable -> Prop :=
| ports_nil : ports_back exact old [] [] []
| ports_cons x y z xs ys zs : port_back exact old x y z -> ports_back exact old xs ys zs ->
    ports_back exact old (x :: xs) (y :: ys) (z :: zs).

(** A non block variable comes back unlocked. *)
Definition nbv_back (x : variable) : variable := mkVar (v_default x) false (v_label x).

(** A step without display setting forgets the index of its display variable. *)
Definition step_back (h : nat -> nat) (s : step) : step :=
  mkStep (st_label s) (map h (st_inputs s)) (st_group_id s) (map h (st_group_inputs s)) (st_display s) (st_doc s)
         (match st_display s with Some _ => st_index s | None => None end) (st_id s).

(** [w'] is [w] up to the identity of variables and what [port_back], [nbv_back] and
    [step_back] say, at every level; its only detached variable is the one of the name of
    the result, unless a non block variable is named so. *)
Inductive back (exact : bool) : wf -> wf -> Prop :=
| back_wf d info ps ss det descr doc name h info' ps' :
    separates h d ->
    Forall2 (part_back exact) ps ps' ->
    (forall v, In v (nonblock_variables d) -> info' (h v) = nbv_back (info v)) ->
    (forall j b p', nth_error (blocks d) j = Some b -> nth_error ps' j = Some p' ->
       exists ins outs, constructed p' = Ok (ins, outs)
         /\ ports_back exact (deprecated p') (map info (b_in b)) ins (map (fun v => info' (h v)) (b_in b))
         /\ ports_back exact (deprecated p') (map info (b_out b)) outs (map (fun v => info' (h v)) (b_out b))) ->
    back exact (Wf d info ps ss det descr doc name)
      (Wf (relabel h d) info' ps' (map (step_back h) ss)
          (if existsb (fun v => String.eqb (t_name (v_label (info v))) "_result_name_") (nonblock_variables d) then []
           else [mkVar None false (mkTag "_result_name_" "Result Name" (0, 0)%Z)]) descr doc name)
with part_back (exact : bool) : part -> part -> Prop :=
| pb_conf c n p : part_back exact (Part (KConf c) n p) (Part (KConf c) n p)
| pb_workflow w w' n p : back exact w w' -> part_back exact (Part (KWorkflow w) n p) (Part (KWorkflow w') n p)
| pb_foreach w w' ins outs ins1 outs1 ins' outs' bn bp i n p : back exact w w' ->
    wfblock_ports w' bn = Ok (ins1, outs1) ->
    ports_back exact false ins ins1 ins' -> ports_back exact false outs outs1 outs' ->
    part_back exact (Part (KForEach w ins outs bn bp i) n p) (Part (KForEach w' ins' outs' bn bp i) n p).

(** ** Identical workflows *)

(** [w'] is [w] but for the identity of variables, at every level. *)
Inductive same : wf -> wf -> Prop :=
| same_wf d info ps ss det descr doc name h info' ps' :
    separates h d ->
    Forall2 same_part ps ps' ->
    (forall v, In v (variables d) -> info' (h v) = info v) ->
    same (Wf d info ps ss det descr doc name)
      (Wf (relabel h d) info' ps'
          (map (fun s => mkStep (st_label s) (map h (st_inputs s)) (st_group_id s) (map h (st_group_inputs s))
                                (st_display s) (st_doc s) (st_index s) (st_id s)) ss) det descr doc name)
with same_part : part -> part -> Prop :=
| sp_conf c n p : same_part (Part (KConf c) n p) (Part (KConf c) n p)
| sp_workflow w w' n p : same w w' -> same_part (Part (KWorkflow w) n p) (Part (KWorkflow w') n p)
| sp_foreach w w' ins outs bn bp i n p : same w w' ->
    same_part (Part (KForEach w ins outs bn bp i) n p) (Part (KForEach w' ins outs bn bp i) n p).

(** What reading does not restore has not been changed: ports have the names and
    positions their constructor gives, and, for deprecated displays, the rest too; non
    block variables are not locked; a step without display setting has no display
    variable; there is no detached variable but the one of the name of the result. *)
Definition pristine (old : bool) (x y : variable) : Prop :=
  if old then x = y else t_name (v_label x) = t_name (v_label y) /\ t_pos (v_label x) = t_pos (v_label y).
Fixpoint restorable (w : wf) : Prop :=
  match w with
  | Wf d info ps ss det _ _ _ =>
      (forall v, In v (nonblock_variables d) -> v_lock (info v) = false)
      /\ (forall s, In s ss -> st_display s = None -> st_index s = None)
      /\ det = (if existsb (fun v => String.eqb (t_name (v_label (info v))) "_result_name_") (nonblock_variables d) then []
                else [mkVar None false (mkTag "_result_name_" "Result Name" (0, 0)%Z)])
      /\ all2 (fun p b => part_restorable p
                 /\ exists ins outs, constructed p = Ok (ins, outs)
                      /\ all2 (pristine (deprecated p)) (map info (b_in b)) ins
                      /\ all2 (pristine (deprecated p)) (map info (b_out b)) outs) ps (blocks d)
  end
with part_restorable (p : part) : Prop :=
  match p with
  | Part k _ _ =>
    match k with
    | KConf _ => True
    | KWorkflow w => restorable w
    | KForEach w ins outs bn _ _ => restorable w
        /\ exists ins1 outs1, wfblock_ports w bn = Ok (ins1, outs1)
             /\ all2 (pristine false) ins ins1 /\ all2 (pristine false) outs outs1
    end
  end.
End Spec.

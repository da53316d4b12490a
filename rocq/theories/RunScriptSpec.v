(** What the script of a run says of the inputs of a workflow. *)
From Coq Require Import ZArith Bool String Arith List.
From Verif Require Import Base ExecModel VariablesModel ScriptModel ScriptSpec RunScriptModel.
Import ListNotations.
Open Scope string_scope.
Open Scope list_scope.

Section Spec.
Context {A : Type}.
Notation wf := (@wf (value A)).

(** The script of [w] names the input [i] of some block number [j]: in [w] or in a workflow
    nested in it, that input is locked or at the end of a pipe. *)
Inductive named : wf -> nat -> nat -> Prop :=
| named_here w j i b v : nth_error (blocks (diagram w)) j = Some b -> nth_error (b_in b) i = Some v ->
    v_lock (info w v) = true \/ (exists s, In (s, v) (pipes (diagram w))) -> named w j i
| named_workflow w w' n p j i : In (Part (KWorkflow w') n p) (parts w) -> named w' j i -> named w j i
| named_foreach w w' bn bp k n p j i : In (Part (KForEach w' bn bp k) n p) (parts w) -> named w' j i -> named w j i.

(** The input at [n] in the list of inputs of the workflow is the input [i] of block [j]. *)
Definition input_port (d : workflow) (n j i : nat) : Prop :=
  exists b v, nth_error (inputs d) n = Some v /\ nth_error (blocks d) j = Some b /\ nth_error (b_in b) i = Some v.

(** The script names no input of the workflow. *)
Definition unnamed (w : wf) : Prop := forall n j i, input_port (diagram w) n j i -> ~ named w j i.

(** An input written in the script: free, or unnamed. *)
Definition written_input (w : wf) (v : nat) : Prop :=
  In v (nonblock_variables (diagram w)) \/ exists n j i b, input_port (diagram w) n j i /\ nth_error (blocks (diagram w)) j = Some b
    /\ nth_error (b_in b) i = Some v /\ ~ named w j i.

(** Annotations with a type missing somewhere; annotations all of whose parts have schemas. *)
Inductive untyped : ann -> Prop :=
| untyped_here : untyped AUntyped
| untyped_arg n l a : In a l -> untyped a -> untyped (AAlias n l).
Inductive has_schema : ann -> Prop :=
| hs_untyped : has_schema AUntyped
| hs_builtin : has_schema ABuiltin
| hs_class c : has_schema (AClass c)
| hs_alias n l : (forall a, In a l -> has_schema a) -> has_schema (AAlias n l).

(** Classes imported for an annotation: a class, an alias of typing, those of its
    arguments.  The name of an alias of a class of another module is lost. *)
Inductive needs : ann -> cls -> Prop :=
| needs_class c : needs (AClass c) c
| needs_alias n l : needs (AAlias (Some n) l) (mkCls "typing" n)
| needs_none l : needs (AAlias None l) (mkCls "typing" "None")
| needs_arg n l a c : In a l -> needs a c -> needs (AAlias n l) c.

(** Values a script writes in full: plain ones whose repr is an expression of them, lists and
    tuples of these but the empty tuple. *)
Variable repr_ok : A -> bool.
Fixpoint inner_full (v : value A) : Prop :=
  match v with
  | Plain x => repr_ok x = true
  | Items _ l => (fix go l := match l with [] => True | x :: l' => inner_full x /\ go l' end) l
  | _ => False
  end.
Definition full (v : value A) : Prop := inner_full v /\ v <> Items true [].

(** The input at [n] gets the value of the input at [m]: itself for a variable that belongs
    to no block; for an input of a block the script does not name, the one as many ranks
    before as there are named inputs before it. *)
Inductive takes (w : wf) : nat -> nat -> Prop :=
| takes_free n v : nth_error (inputs (diagram w)) n = Some v -> In v (nonblock_variables (diagram w)) -> takes w n n
| takes_port n j i ks : input_port (diagram w) n j i -> ~ named w j i -> NoDup ks ->
    (forall k, In k ks <-> k < n /\ exists j' i', input_port (diagram w) k j' i' /\ named w j' i') ->
    takes w n (n - length ks).

(** What a value becomes in a script with these imports: values written in full are kept,
    instances are made again from a text, those of a tuple too, in a list. *)
Variable call : bool -> cls -> res (value A).
Inductive read_back (imports : list (string * list string)) : value A -> value A -> Prop :=
| rb_full v : full v -> read_back imports v v
| rb_object c x y : imported imports c -> call false c = Ok y -> read_back imports (Object c x) y
| rb_file c x y : imported imports c -> call true c = Ok y -> read_back imports (File c x) y
| rb_objects t l ys : Forall2 (fun v y => exists c x, v = Object c x /\ imported imports c /\ call false c = Ok y) l ys ->
    read_back imports (Items t l) (Items false ys)
| rb_files t l ys : l <> [] -> Forall2 (fun v y => exists c x, v = File c x /\ imported imports c /\ call true c = Ok y) l ys ->
    read_back imports (Items t l) (Items false ys).
End Spec.

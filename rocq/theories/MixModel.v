(** Model of what workflows say of themselves: the packages they use, whether they are valid, the pipes between
    two blocks and the format of an export (/repo/dessia_common/workflow/core.py:963-969, 1270-1299, 2101-2106). *)
From Coq Require Import List String Ascii Bool Arith QArith.
From Verif Require Import Base.
Import ListNotations.
Local Open Scope string_scope.
Local Open Scope list_scope.

(** Blocks: InstantiateModel and ModelMethod use the module of a class, WorkflowBlock a workflow, the others
    (among them ForEach and ClassMethod) have no package_mix (workflow/blocks.py:118-120, 266-268, 422-424). *)
Inductive block := Uses (module : string) | Sub (blocks : list block) | Other.
(** [module.split(".")[0]] *)
Fixpoint package (module : string) : string :=
  match module with
  | EmptyString => ""
  | String c s => if (c =? ".")%char then "" else String c (package s)
  end.
(** Dictionaries keep the order in which keys came. *)
Definition mix := list (string * Q).
Fixpoint add (m : mix) (p : string) (f : Q) : mix :=
  match m with
  | [] => [(p, f)]
  | (q, g) :: m => if (q =? p)%string then (q, g + f)%Q :: m else (q, g) :: add m p f
  end.
Fixpoint merge (m : mix) (items : mix) : mix :=
  match items with
  | [] => m
  | (p, f) :: items => merge (add m p f) items
  end.
Fixpoint sum (m : mix) : Q := match m with [] => 0%Q | (_, f) :: m => (f + sum m)%Q end.
(** workflow/core.py:1297-1299 *)
Definition dimensionless (m : mix) : mix := let s := sum m in map (fun pf => (fst pf, (snd pf / s)%Q)) m.
(** The package_mix of a block that has one; that of a workflow, 1286-1299, goes through its blocks. *)
Fixpoint block_mix (b : block) : option mix :=
  match b with
  | Uses module => Some [(package module, 1%Q)]
  | Sub blocks =>
    Some (dimensionless ((fix go (l : list block) (m : mix) : mix :=
      match l with
      | [] => m
      | b :: l => go l (match block_mix b with Some items => merge m items | None => m end)
      end) blocks []))
  | Other => None
  end.
Fixpoint collect_mix (l : list block) (m : mix) : mix :=
  match l with
  | [] => m
  | b :: l => collect_mix l (match block_mix b with Some items => merge m items | None => m end)
  end.
Definition package_mix (blocks : list block) : mix := dimensionless (collect_mix blocks []).

(** is_valid, 1270-1284.  [attribute t] is the attribute type_ of a type, when it has one; [same] compares. *)
Section Valid.
Context {T : Type}.
Variable attribute : T -> option T.
Variable same : T -> T -> bool.
Fixpoint is_valid (pipes : list (T * T)) : res bool :=
  match pipes with
  | [] => Ok true
  | (upstream, downstream) :: pipes =>
    let* u := of_option AttributeError (attribute upstream) in
    let* d := of_option AttributeError (attribute downstream) in
    if same u d then is_valid pipes else
    let* _ := of_option AttributeError (attribute u) in
    (* issubclass gives a result that is not used, or a TypeError that is caught *)
    is_valid pipes
  end.
End Valid.

(** export_format_from_selector, 2101-2106: formats are objects, that can not be subscripted. *)
Definition export_format_from_selector {F : Type} (formats : list F) (selector : string) : res F :=
  match formats with
  | [] => Err ValueError
  | _ :: _ => Err TypeError
  end.

(** pipes_between_blocks, 963-969.  The pipes of a variable are a list for outputs; an input has one pipe or None. *)
Section Pipes.
Variable outgoing incoming : list (option nat).
Definition pipes_between_blocks : list nat :=
  flat_map (fun p => match p with
    | Some p => if existsb (fun q => match q with Some q => (q =? p)%nat | None => false end) incoming then [p] else []
    | None => []
    end) outgoing.
End Pipes.

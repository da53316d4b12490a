(** Model of the lock state of workflow variables (dessia_common/workflow/core.py). *)
From Coq Require Import Bool List.
From Verif Require Import Base.
Import ListNotations.

Section Variables.
Context {V L : Type}.

(** Variable, workflow/core.py:46-60.  [None] is UNDEFINED.  Name and type play no
    part here and are left out; [v_label] stands for label and position. *)
Record variable := mkVar { v_default : option V; v_lock : bool; v_label : L }.

(** [locked], workflow/core.py:62-69 *)
Definition is_locked (x : variable) : res bool :=
  if v_lock x then match v_default x with Some _ => Ok true | None => Err ValueError end
  else Ok false.

(** [lock], workflow/core.py:76-83; the argument is None for UNDEFINED.  The result
    is the variable after the call and the exception raised, if any. *)
Definition lock (value : option V) (x : variable) : variable * option exn :=
  match value, v_default x with
  | None, None => (x, Some ValueError)
  | Some d, _ => (mkVar (Some d) true (v_label x), None)
  | None, Some _ => (mkVar (v_default x) true (v_label x), None)
  end.

(** [unlock], workflow/core.py:85-89 *)
Definition unlock (keep_default : bool) (x : variable) : variable * option exn :=
  (mkVar (if keep_default then v_default x else None) false (v_label x), None).

(** Workflow.set_input_default and reset_input_default, workflow/core.py:1568-1575 *)
Definition set_default (value : option V) (x : variable) : variable * option exn :=
  (mkVar value (v_lock x) (v_label x), None).

(** [update_from_config], workflow/core.py:119-126: the default and the label are
    replaced first, then [lock()] is called if the configuration says locked; a
    configuration that says unlocked does not unlock. *)
Definition update_from_config (value : option V) (label : L) (locked : bool) (x : variable)
  : variable * option exn :=
  let x1 := mkVar value (v_lock x) label in
  if locked then lock None x1 else (x1, None).

(** [copy], workflow/core.py:139-153.  [blank] is the label and position of a
    variable built without them; values are copied by an equal value. *)
Definition copy (blank : L) (x : variable) : res variable :=
  let* l := is_locked x in
  let y := mkVar (v_default x) false blank in
  Ok (if l then fst (lock None y) else y).

Inductive edit :=
| Lock (value : option V)
| Unlock (keep_default : bool)
| SetDefault (value : V)
| ResetDefault
| Config (value : option V) (label : L) (locked : bool).

Definition apply (x : variable) (e : edit) : variable * option exn :=
  match e with
  | Lock v => lock v x
  | Unlock k => unlock k x
  | SetDefault v => set_default (Some v) x
  | ResetDefault => set_default None x
  | Config v l b => update_from_config v l b x
  end.

(** A history of edits; an exception is caught and the history goes on. *)
Definition edits (es : list edit) (x : variable) : variable :=
  fold_left (fun x e => fst (apply x e)) es x.

(** workflow/core.py:51-60 *)
Definition new_variable (default : option V) (label : L) : variable := mkVar default false label.
End Variables.
Arguments variable : clear implicits.
Arguments edit : clear implicits.

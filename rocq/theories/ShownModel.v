(** Model of the displays of a workflow run and of the paths they refer to
    (dessia_common/workflow/core.py, workflow/blocks.py). *)
From Coq Require Import String Bool Arith ZArith DecimalString List.
From Verif Require Import Base PyValue ExecModel BranchModel PathsModel.
Import ListNotations.
Local Open Scope string_scope.

Definition dec (n : nat) : string := NilZero.string_of_uint (Nat.to_uint n).

(** The selector of a display block: a ViewType with its name, a string as the deprecated
    blocks have, or None (DeprecatedMultiPlot). *)
Inductive chooser := ViewType (name : string) | Legacy (name : string) | NoSelector.
(** Display blocks, workflow/blocks.py:701-721. *)
Record display_block := { chosen : chooser; block_type : string; serialize_flag : bool; load_flag : bool; block_name : string }.

(** DisplaySetting with the arguments of block_display; the block is None for a method
    without arguments. *)
Record setting := { s_selector : string; s_type : string; s_method : string; s_block : option nat;
                    s_path : string; s_serialize : bool; s_load : bool }.

Section Shown.
Variable w : workflow.
(** The blocks that have display settings. *)
Variable display_of : nat -> option display_block.

(** display_blocks, workflow/core.py:645-648, by indices. *)
Definition displays : list nat :=
  filter (fun b => match display_of b with Some _ => true | None => false end) (seq 0 (List.length (blocks w))).

(** block_selector and selector_name for display blocks, workflow/core.py:615-634. *)
Definition block_selector (b : nat) : string :=
  match display_of b with
  | None => "Block (" ++ dec b ++ ")"
  | Some d =>
    let generic := (if String.eqb (block_name d) "" then block_type d else block_name d) ++ " (" ++ dec b ++ ")" in
    match chosen d with
    | ViewType name => name
    | Legacy name => if String.eqb name "" then generic else name
    | NoSelector => generic
    end
  end.

(** The reference path, workflow/core.py:655-659: [pipes.index(None)] is a ValueError. *)
Definition reference_path (bl : block) : res string :=
  match b_in bl with
  | [] => Ok "#"
  | v :: _ => match variable_input_pipe w v with
              | Some ip => Ok ("#" ++ "/values/" ++ dec (fst ip))
              | None => Err ValueError
              end
  end.

(** Display._display_settings, workflow/blocks.py:716-721: a string has no name. *)
Definition block_settings (d : display_block) (b : nat) (path : string) : res setting :=
  match chosen d with
  | ViewType name => Ok {| s_selector := name; s_type := block_type d; s_method := "block_display"; s_block := Some b;
                           s_path := path; s_serialize := serialize_flag d; s_load := load_flag d |}
  | _ => Err AttributeError
  end.

(** Workflow.blocks_display_settings, workflow/core.py:650-665. *)
Definition blocks_display_settings : res (list setting) :=
  mapM (fun b =>
    let* bl := of_option IndexError (nth_error (blocks w) b) in
    let* d := of_option AttributeError (display_of b) in
    let* path := reference_path bl in
    let* s := block_settings d b path in
    Ok {| s_selector := block_selector b; s_type := s_type s; s_method := s_method s; s_block := s_block s;
          s_path := s_path s; s_serialize := s_serialize s; s_load := s_load s |}) displays.

(** WorkflowRun.display_settings, workflow/core.py:2182-2194. *)
Definition run_settings : res (list setting) :=
  let* l := blocks_display_settings in
  Ok ({| s_selector := "Documentation"; s_type := "markdown"; s_method := "to_markdown"; s_block := None; s_path := "#";
         s_serialize := false; s_load := negb (existsb s_load l) |} :: l).

(** WorkflowState.display_settings, workflow/core.py:1884-1890. *)
Definition state_settings : res (list setting) :=
  let* l := blocks_display_settings in
  Ok ({| s_selector := "workflow_state"; s_type := "workflow_state"; s_method := "state_display"; s_block := None; s_path := "#";
         s_serialize := false; s_load := false |} :: l).
(** The displays of a state, core.py:454-460: DessiaObject._display_settings_from_selector
    (core.py:446-452) calls display_settings on the class, that needs an instance. *)
Definition state_displays {A} : res (list A) :=
  let* l := state_settings in
  mapM (fun _ => Err TypeError) l.

Variable default : nat -> option val.
Variable lock_flag : nat -> bool.
Variable type_ok : nat -> val -> bool.
Variable evaluate : nat -> list val -> res (list val).
Variable set_order : nat -> list nat -> list nat.
(** to_markdown and state_display; serialize. *)
Variable call : string -> res val.
Variable serialize : val -> res val.

Notation block_display := (block_display w default lock_flag type_ok evaluate set_order displays block_selector).

(** DisplayObject, displays.py:84-102; the traceback is the exception.  Texts are not cleaned. *)
Record display := { d_type : string; d_data : val; d_path : string; d_traceback : option exn }.

(** WorkflowRun._display_from_selector, core.py:432-444 and workflow/core.py:2196-2198. *)
Definition display_from_selector (s : state val) (sel : string) : res display :=
  let* l := run_settings in
  let* st := of_option ValueError (List.find (fun st => String.eqb (s_selector st) sel) l) in
  let shown := match s_block st with
               | Some b => let* r := block_display b s in Ok (fst r)
               | None => call (s_method st)
               end in
  let '(value, track) := match shown with Ok v => (v, None) | Err e => (VNone, Some e) end in
  let* data := if s_serialize st then serialize value else Ok value in
  Ok {| d_type := s_type st; d_data := data; d_path := s_path st; d_traceback := track |}.

(** ** Following a path *)
Variable int_of : string -> option Z.
Variable isdigit : string -> bool.
(** get_in_object_from_path on the run, for paths that are not below values. *)
Variable generic : list string -> res val.
Variable fuel : nat.

(** The first attempt of _get_from_path: below values is a dictionary whose keys are pipes
    (extract_segment_from_object, utils/helpers.py:110-145). *)
Definition in_run (path : string) : res val :=
  match segments path with
  | first :: k :: rest =>
    if String.eqb first "values" then
      if isdigit k then match int_of k with None => Err ValueError | Some _ => Err ExtractionError end
      else if tuple_like k then Err KeyError else Err ExtractionError
    else generic (first :: k :: rest)
  | l => generic l
  end.

(** WorkflowRun._get_from_path, workflow/core.py:2156-2174. *)
Definition get_from_path (s : state val) (path : string) : res val :=
  match in_run path with
  | Err ExtractionError =>
    match PathsModel.split path with
    | _ :: first :: k :: rest =>
      if String.eqb first "values" then
        let* z := of_option ValueError (int_of k) in
        let* p := of_option IndexError (py_index (List.length (pipes w)) z) in
        let* value := of_option KeyError (s_pipe s p) in
        match rest with
        | [] => Ok value
        | _ => get_in_object_from_path int_of isdigit fuel value ("#/" ++ String.concat "/" rest) true
        end
      else Err NotImplementedError
    | [_] | [] => Err IndexError
    | _ => Err NotImplementedError
    end
  | r => r
  end.

(** ** Samples of plots *)
Record sample := { values : list (string * val); sample_path : string; sample_name : string }.

(** MultiPlot.evaluate, workflow/blocks.py:868-890: the samples of the parallel plot and of
    the scatter plot, once their two axes are known.  Values keep the first place of an
    attribute that is named twice. *)
Definition sample_of (attributes : list string) (path : string) (i : nat) (o : val) : res sample :=
  let* vs := mapM (fun a => let* v := get_in_object_from_path int_of isdigit fuel o a true in Ok (a, v))
                  (dedup String.eqb [] attributes) in
  Ok {| values := vs; sample_path := path ++ "/" ++ dec i; sample_name := "Sample " ++ dec i |}.
Definition samples_of (attributes : list string) (path : string) (objects : list val) : res (list sample) :=
  mapM (fun io => sample_of attributes path (fst io) (snd io)) (enumerate objects).
Definition multiplot (attributes : list string) (path : string) (objects : list val) : res (list sample * list sample * (string * string)) :=
  let* samples := samples_of attributes path objects in
  let* samples2d := samples_of (firstn 2 attributes) path objects in
  let* x := of_option IndexError (nth_error attributes 0) in
  let* y := of_option IndexError (nth_error attributes 1) in
  Ok (samples, samples2d, (x, y)).
End Shown.

(** Display.evaluate, workflow/blocks.py:723-739: [method] is the method of the object, called
    with a reference path or without; also gives the calls made. *)
Definition display_evaluate (method : option string -> res val) (path : option string) : list (option string) * res val :=
  match method path with
  | Err TypeError => ([path; None], method None)
  | r => ([path], r)
  end.

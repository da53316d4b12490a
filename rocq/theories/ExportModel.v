(** Model of the exports of objects: formats, files and archives
    (dessia_common/core.py, files.py, exports.py, workflow/core.py, workflow/blocks.py). *)
From Coq Require Import Bool Arith String List.
From Verif Require Import Base DisplayModel.
Import ListNotations.
Local Open Scope string_scope.

(** The decorators of exports, decorators.py:128-170. *)
Definition export_step (selector : string) : effect := Exporter selector "step" true.
Definition export_stl (selector : string) : effect := Exporter selector "stl" false.
Definition export_html (selector : string) : effect := Exporter selector "html" true.
Definition export_docx (selector : string) : effect := Exporter selector "docx" true.
Definition export_xlsx (selector : string) : effect := Exporter selector "xlsx" false.

(** ExportFormat, exports.py:37-63.  The only arguments are block indices. *)
Record format := { f_selector : string; f_extension : string; f_method : string; f_text : bool;
                   f_name : string; f_block : option nat }.
Definition generic (selector extension method : string) (text : bool) : format :=
  {| f_selector := selector; f_extension := extension; f_method := method; f_text := text; f_name := ""; f_block := None |}.

(** DessiaObject._export_formats_from_decorator_name, core.py:588-600. *)
Definition formats_from_decorator_name (c : class) (decorator_name : string) : res (list format) :=
  let* methods := get_decorated_methods c decorator_name in
  mapM (fun m =>
    let* e := of_option AttributeError (extension (snd m)) in
    let* n := of_option AttributeError (method_name (snd m)) in
    let* t := of_option AttributeError (text (snd m)) in
    let s := match selector (snd m) with None => e | Some s => if String.eqb s "" then e else s end in
    Ok (generic s e n t)) methods.
(** EXPORT_DECORATORS, decorators.py:10; _export_formats_from_decorators, core.py:602-605. *)
Definition formats_from_decorators (c : class) : res (list format) :=
  let* l := mapM (formats_from_decorator_name c)
                 ["export_decorator"; "export_step"; "export_stl"; "export_html"; "export_docx"; "export_xlsx"] in
  Ok (List.concat l).
(** DessiaObject._export_formats, core.py:607-615. *)
Definition object_formats (c : class) : res (list format) :=
  let* decorated := formats_from_decorators c in
  Ok ([generic "json" "json" "save_to_stream" true; generic "xlsx" "xlsx" "to_xlsx_stream" false;
       generic "docx" "docx" "to_docx_stream" false] ++ decorated ++ [generic "zip" "zip" "to_zip_stream" false])%list.

(** The kind of an object; states and runs of a workflow have the formats of its export
    blocks (Workflow.blocks_export_formats, workflow/core.py:679-689). *)
Inductive kind := Object | Physical | Workflow | State (blocks : list format) | Run (blocks : list format).

(** The format of an Export block, workflow/blocks.py:1460-1464, or of an Archive block
    (1525-1529), with the selector that the workflow gives it. *)
Definition block_format (selector extension filename : string) (text : bool) (block_index : nat) : format :=
  {| f_selector := selector; f_extension := extension; f_method := "export"; f_text := text;
     f_name := filename; f_block := Some block_index |}.

(** _export_formats: core.py:739-746, workflow/core.py:691-696, 2093-2099, 2281-2286. *)
Definition export_formats (k : kind) (c : class) : res (list format) :=
  let* l := object_formats c in
  let script := generic "py" "py" "save_script_to_stream" true in
  Ok (match k with
      | Object => l
      | Physical => l ++ [generic "step" "step" "to_step_stream" true; generic "stl" "stl" "to_stl_stream" false;
                          generic "html" "html" "to_html_stream" true]
      | Workflow => l ++ [script]
      | State blocks => l ++ blocks
      | Run blocks => l ++ blocks ++ [script]
      end)%list.

(** Streams: a file opened for writing, a StringFile or a BinaryFile, with its name and its
    content: data or the entries of an archive. *)
Inductive device := Opened (text : bool) | StringFile | BinaryFile.
Inductive content := Data (s : string) | Zip (entries : list (string * content)).
Record stream := { device_of : device; filename : string; content_of : content }.
Definition new (d : device) (name : string) : stream := {| device_of := d; filename := name; content_of := Data "" |}.

(** generate_archive, files.py:211-221, for something that may not be a stream. *)
Definition generate_archive (entries : list (string * content)) (value : option stream) : res (list (string * content)) :=
  match value with
  | Some s => match device_of s with
              | StringFile => Ok (entries ++ [(filename s, content_of s)])%list
              | BinaryFile => Ok (entries ++ [(filename s, content_of s)])%list
              | Opened _ => Err ValueError
              end
  | None => Err ValueError
  end.

(** Reading from an archive by name: the last entry with this name. *)
Definition read (entries : list (string * content)) (name : string) : option content :=
  option_map snd (find (fun e => String.eqb (fst e) name) (rev entries)).

Section Export.
(** The call of a method of the object on a stream, and the stream that the evaluation of
    the branch of an export block gives. *)
Variable write : string -> stream -> res stream.
Variable block_stream : nat -> res stream.

(** WorkflowState.export, workflow/core.py:2108-2125. *)
Definition export (s : stream) (block_index : nat) : res stream :=
  let* e := block_stream block_index in
  match device_of s, device_of e with
  | Opened _, _ => Ok {| device_of := device_of s; filename := filename e; content_of := content_of s |}
  | StringFile, StringFile | BinaryFile, BinaryFile =>
      Ok {| device_of := device_of s; filename := filename e; content_of := content_of e |}
  | StringFile, _ => Err TypeError               (* write(bytes) *)
  | BinaryFile, _ => Err AttributeError          (* no getbuffer *)
  end.
Definition call (k : kind) (m : string) (s : stream) (block_index : option nat) : res stream :=
  match k with
  | State _ | Run _ =>
      if String.eqb m "export"
      then match block_index with Some i => export s i | None => Err TypeError end
      else write m s
  | _ => write m s
  end.

(** zip_settings, core.py:556-566 and workflow/core.py:2288-2299. *)
Definition stream_for (text : bool) : device := if text then StringFile else BinaryFile.
Definition zip_settings (k : kind) (c : class) : res (list stream) :=
  match k with
  | Run blocks =>
      mapM (fun f => call k (f_method f) (new (stream_for (f_text f)) (f_name f)) (f_block f))
           (filter (fun f => negb (String.eqb (f_extension f) "zip")) blocks)
  | _ =>
      let* formats := export_formats k c in
      mapM (fun f => call k (f_method f) (new (stream_for (f_text f)) ("export." ++ f_extension f)) None)
           (filter (fun f => negb (String.eqb (f_extension f) "zip")) formats)
  end.

(** DessiaObject.to_zip_stream, core.py:568-576: the stream, and what is returned in a list:
    the stream or the handle of the last entry. *)
Inductive returned := TheArchive | TheEntry (name : string).
Definition to_zip_stream (k : kind) (c : class) (archive : stream) : res (stream * returned) :=
  let* streams := zip_settings k c in
  let* entries := foldM (fun es s => generate_archive es (Some s)) streams [] in
  Ok ({| device_of := device_of archive; filename := "export_zip"; content_of := Zip entries |},
      match rev entries with [] => TheArchive | e :: _ => TheEntry (fst e) end).

(** DessiaObject.save_export_to_file, core.py:617-631: the path and the content of the file. *)
Definition ends_with (s suffix : string) : bool :=
  (String.length suffix <=? String.length s)%nat
  && String.eqb (substring (String.length s - String.length suffix) (String.length suffix) s) suffix.
Definition save_export_to_file (k : kind) (c : class) (selector path : string) : res (string * content) :=
  let* formats := export_formats k c in
  match find (fun f => String.eqb (f_selector f) selector) formats with
  | None => Err ValueError
  | Some f =>
      let path := if ends_with path ("." ++ f_extension f) then path else path ++ ("." ++ f_extension f) in
      let* s := if String.eqb (f_method f) "to_zip_stream"
                then let* r := to_zip_stream k c (new (Opened (f_text f)) path) in Ok (fst r)
                else call k (f_method f) (new (Opened (f_text f)) path) (f_block f) in
      Ok (path, content_of s)
  end.

(** DessiaObject.to_zip, core.py:578-586. *)
Definition to_zip (k : kind) (c : class) (path : string) : res (string * content) :=
  let path := if ends_with path ".zip" then path else path ++ ".zip" in
  let* r := to_zip_stream k c (new BinaryFile "") in
  Ok (path, content_of (fst r)).

(** Export.evaluate, workflow/blocks.py:1450-1458: [write] is for the model given to the block. *)
Definition export_evaluate (name extension method : string) (text : bool) : res stream :=
  write method (new (stream_for text) (name ++ "." ++ extension)).
End Export.

(** Archive.evaluate, workflow/blocks.py:1514-1523. *)
Definition archive_evaluate (values : list (option stream)) (name : string) : res stream :=
  let* entries := foldM generate_archive values [] in
  Ok {| device_of := BinaryFile; filename := name ++ ".zip"; content_of := Zip entries |}.

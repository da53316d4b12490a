(** Model of decorators, of the display settings of a class, and of the displays of its
    objects (dessia_common/decorators.py, core.py, displays.py). *)
From Coq Require Import Bool String List.
From Verif Require Import Base.
Import ListNotations.
Local Open Scope string_scope.

(** What is written after @, with or without arguments: a name, an attribute of
    something, or anything else. *)
Inductive head := Name (id : string) | Attribute (attr : string) | Other.

(** The kinds of views, decorators.py:43-108. *)
Inductive view := Picture | PlotData | Markdown | Cad.
(** The type_ they set. *)
Definition type_of (v : view) : string :=
  match v with Picture => "picture" | PlotData => "plot_data" | Markdown => "markdown" | Cad => "babylon_data" end.
(** The serialize_data they set. *)
Definition serialized (v : view) : bool := match v with Markdown => false | _ => true end.

(** What a decorator does to the function: one of the views, one of the exports
    (selector, extension, is_text), or nothing that matters here. *)
Inductive effect :=
| View (v : view) (selector : option string) (load_by_default : bool)
| Exporter (selector extension : string) (is_text : bool)
| Nothing.

Record decorator := { written : head; does : effect }.

(** Attributes of a function, those set by set_decorated_function_metadata (decorators.py:173-179)
    and set_decorated_function_metadata_export (182-188).  [None] is for a missing attribute,
    and also for the selector None. *)
Record metadata := { type_ : option string; selector : option string; serialize_data : bool; load_by_default : bool;
                     text : option bool; extension : option string; method_name : option string }.
Definition no_metadata : metadata :=
  {| type_ := None; selector := None; serialize_data := false; load_by_default := false;
     text := None; extension := None; method_name := None |}.

Definition apply (name : string) (m : metadata) (d : decorator) : metadata :=
  match does d with
  | View v s l => {| type_ := Some (type_of v); selector := s; serialize_data := serialized v; load_by_default := l;
                     text := text m; extension := extension m; method_name := method_name m |}
  | Exporter s e t => {| type_ := type_ m; selector := Some s; serialize_data := serialize_data m;
                         load_by_default := load_by_default m;
                         text := Some t; extension := Some e; method_name := Some name |}
  | Nothing => m
  end.

(** Members of a class: the functions of inspect.getmembers, then its methods (class methods),
    each sorted by name.  [source] is what parsing the source of the member gives: a definition
    (FunctionDef) with its name and decorators from top to bottom, something else, or the
    exception of inspect.getsource or ast.parse. *)
Inductive source := Def (name : string) (decorators : list decorator) | NotDef.
Record member := { key : string; source_of : res source }.
Definition class := list member.

(** The attributes of the function once decorated, the decorator at the bottom first. *)
Definition metadata_of (name : string) (ds : list decorator) : metadata :=
  fold_left (apply name) (rev ds) no_metadata.

(** get_all_decorated_methods, decorators.py:13-21. *)
Definition get_all_decorated_methods (c : class) : res (list (string * list decorator)) :=
  let* defs := mapM source_of c in
  Ok (flat_map (fun d => match d with
                         | Def n (x :: ds) => [(n, x :: ds)]
                         | _ => []
                         end) defs).

(** The name of a decorator, decorators.py:31-35. *)
Definition name_of (d : decorator) : res string :=
  match written d with
  | Name id => Ok id
  | Attribute attr => Ok attr
  | Other => Err AttributeError
  end.

(** getattr(class_, n): the name of the function (__name__) and its attributes.  A member
    that is not a definition has neither. *)
Definition get_attribute (c : class) (n : string) : res (string * metadata) :=
  match find (fun m => String.eqb (key m) n) c with
  | Some {| source_of := Ok (Def name ds) |} => Ok (name, metadata_of name ds)
  | Some _ => Ok (n, no_metadata)
  | None => Err AttributeError
  end.

(** get_decorated_methods, decorators.py:24-40. *)
Definition get_decorated_methods (c : class) (decorator_name : string) : res (list (string * metadata)) :=
  let* methods := get_all_decorated_methods c in
  let* names := mapM (fun m => let* ns := mapM name_of (snd m) in Ok (fst m, ns)) methods in
  mapM (get_attribute c)
       (map fst (filter (fun m => memb String.eqb decorator_name (snd m)) names)).

(** DisplaySetting, displays.py:14-30.  Arguments are empty for the displays of objects. *)
Record setting := { s_selector : string; s_type : option string; s_method : string;
                    s_serialize : bool; s_load : bool }.

(** DessiaObject._display_settings_from_decorator_name, core.py:411-425. *)
Definition settings_from_decorator_name (c : class) (decorator_name : string) : res (list setting) :=
  let* methods := get_decorated_methods c decorator_name in
  Ok (map (fun m =>
        {| s_selector := match selector (snd m) with None => fst m | Some s => s end;
           s_type := type_ (snd m); s_method := fst m;
           s_serialize := serialize_data (snd m); s_load := load_by_default (snd m) |}) methods).

(** DISPLAY_DECORATORS, decorators.py:9; _display_settings_from_decorators, core.py:427-430. *)
Definition settings_from_decorators (c : class) : res (list setting) :=
  let* l := mapM (settings_from_decorator_name c) ["plot_data_view"; "markdown_view"; "cad_view"] in
  Ok (List.concat l).

(** DessiaObject.display_settings, core.py:398-409. *)
Definition display_settings (c : class) : res (list setting) :=
  let* settings := settings_from_decorators c in
  let has_markdown := existsb (fun s => match s_type s with Some t => String.eqb t "markdown" | None => false end) settings in
  let default_md := {| s_selector := "Markdown"; s_type := Some "markdown"; s_method := "to_markdown";
                       s_serialize := false; s_load := true |} in
  let tree := {| s_selector := "Structure Tree"; s_type := Some "tree"; s_method := "";
                 s_serialize := false; s_load := false |} in
  Ok ((if has_markdown then settings else default_md :: settings) ++ [tree])%list.

(** display_settings_from_selector, core.py:1211-1216; _display_settings_from_selector,
    core.py:446-452, raises the same exception. *)
Definition settings_from_selector (c : class) (sel : string) : res setting :=
  let* settings := display_settings c in
  of_option ValueError (find (fun s => String.eqb (s_selector s) sel) settings).

Section Object.
(** Values, None, the truth of a value, the call of a method of the object without arguments,
    serialize and inspect.cleandoc. *)
Variable V : Type.
Variable none : V.
Variable truthy : V -> bool.
Variable call : string -> res V.
Variable serialize cleandoc : V -> res V.

(** attrmethod_getter(self, method)(), breakdown.py:14-31, for the name of a method or "":
    an object has no attribute without a name. *)
Definition call_method (m : string) : res V :=
  if String.eqb m "" then Err AttributeError else call m.

(** DisplayObject, displays.py:84-102.  The traceback is the exception, the reference path is "#". *)
Record display := { d_type : option string; d_data : V; d_traceback : option exn }.
Definition display_object (type : option string) (data : V) (track : option exn) : res display :=
  let* data := match type with
               | Some t => if truthy data && String.eqb t "markdown" then cleandoc data else Ok data
               | None => Ok data
               end in
  Ok {| d_type := type; d_data := data; d_traceback := track |}.

(** DessiaObject._display_from_selector, core.py:432-444. *)
Definition display_from_selector (c : class) (sel : string) : res display :=
  let* s := settings_from_selector c sel in
  let '(shown, track) := match call_method (s_method s) with
                         | Ok v => (v, None)
                         | Err e => (none, Some e)
                         end in
  let* data := if s_serialize s then serialize shown else Ok shown in
  display_object (s_type s) data track.

(** DessiaObject._displays, core.py:454-460. *)
Definition displays (c : class) : res (list display) :=
  let* settings := display_settings c in
  mapM (fun s => display_from_selector c (s_selector s)) settings.

(** DessiaObject.mpl_plot, core.py:377-389: [plots] is display.mpl_plot() when there is such
    a method.  The arguments are empty. *)
Variable plots : V -> option (res V).
Definition mpl_plot (c : class) (sel : string) : res V :=
  let* s := settings_from_selector c sel in
  match s_type s with
  | Some "plot_data" =>
      let* d := call_method (s_method s) in
      match plots d with Some r => r | None => Err NotImplementedError end
  | _ => Err NotImplementedError
  end.
End Object.
Arguments d_type {V}. Arguments d_data {V}. Arguments d_traceback {V}.

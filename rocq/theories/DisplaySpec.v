(** What is said of the displays of a class. *)
From Coq Require Import Bool String List.
From Verif Require Import Base DisplayModel.
Import ListNotations.
Local Open Scope string_scope.

(** A decorator written under its own name, whatever it is an attribute of. *)
Definition own_name (d : decorator) : Prop :=
  exists id, (written d = Name id \/ written d = Attribute id) /\
  match does d with
  | View Picture _ _ => id = "picture_view"
  | View PlotData _ _ => id = "plot_data_view"
  | View Markdown _ _ => id = "markdown_view"
  | View Cad _ _ => id = "cad_view"
  | _ => ~ In id ["picture_view"; "plot_data_view"; "markdown_view"; "cad_view"]
  end.
(** A method without alias, whose source is found, with at most one decorator that is a view
    or an export. *)
Definition ordinary (m : member) : Prop :=
  exists ds, source_of m = Ok (Def (key m) ds) /\ (forall d, In d ds -> own_name d)
  /\ ((forall d, In d ds -> does d = Nothing)
      \/ exists u d v, ds = (u ++ d :: v)%list /\ forall x, In x (u ++ v)%list -> does x = Nothing).

(** The method is decorated with the view. *)
Definition has_view (m : member) (v : view) (sel : option string) (load : bool) : Prop :=
  exists ds d, source_of m = Ok (Def (key m) ds) /\ In d ds /\ does d = View v sel load.

(** What a setting shows of an object. *)
Section Shows.
Variable V : Type.
Variable none : V.
Variable truthy : V -> bool.
Variable call : string -> res V.
Variable serialize cleandoc : V -> res V.
(** [v] once serialized, and cleaned when it is the text of a markdown. *)
Definition prepared (s : setting) (v w : V) : Prop :=
  exists u, (if s_serialize s then serialize v = Ok u else u = v)
  /\ (s_type s = Some "markdown" /\ truthy u = true /\ cleandoc u = Ok w
      \/ (s_type s <> Some "markdown" \/ truthy u = false) /\ w = u).
Definition shows (s : setting) (d : display V) : Prop :=
  d_type d = s_type s /\
  ((exists v, s_method s <> "" /\ call (s_method s) = Ok v /\ d_traceback d = None /\ prepared s v (d_data d))
   \/ (exists e, (s_method s <> "" /\ call (s_method s) = Err e \/ s_method s = "" /\ e = AttributeError)
        /\ d_traceback d = Some e /\ prepared s none (d_data d))).
End Shows.

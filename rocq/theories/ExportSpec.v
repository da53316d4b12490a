(** What is said of the exports of objects. *)
From Coq Require Import Bool String List.
From Verif Require Import Base DisplayModel ExportModel.
Import ListNotations.
Local Open Scope string_scope.

(** A decorator written under its own name. *)
Definition own_export (d : decorator) : Prop :=
  exists id, (written d = Name id \/ written d = Attribute id) /\
  match does d with
  | Exporter _ _ _ => In id ["export_decorator"; "export_step"; "export_stl"; "export_html"; "export_docx"; "export_xlsx"]
  | _ => ~ In id ["export_decorator"; "export_step"; "export_stl"; "export_html"; "export_docx"; "export_xlsx"]
  end.
(** A method without alias, whose source is found, with at most one decorator that is a view
    or an export. *)
Definition ordinary_method (m : member) : Prop :=
  exists ds, source_of m = Ok (Def (key m) ds) /\ (forall d, In d ds -> own_export d)
  /\ ((forall d, In d ds -> does d = Nothing)
      \/ exists u d v, ds = (u ++ d :: v)%list /\ forall x, In x (u ++ v)%list -> does x = Nothing).
Definition exported (m : member) (sel ext : string) (is_text : bool) : Prop :=
  exists ds d, source_of m = Ok (Def (key m) ds) /\ In d ds /\ does d = Exporter sel ext is_text.

(** The first format with the selector. *)
Definition first_format (sel : string) (f : format) (l : list format) : Prop :=
  exists u v, l = (u ++ f :: v)%list /\ f_selector f = sel /\ forall g, In g u -> f_selector g <> sel.

(** Methods that write do not rename the stream. *)
Definition only_writes (write : string -> stream -> res stream) : Prop :=
  forall m s s', write m s = Ok s' -> device_of s' = device_of s /\ filename s' = filename s.

(** The formats whose files are not archives. *)
Definition not_zip (f : format) : bool := negb (String.eqb (f_extension f) "zip").

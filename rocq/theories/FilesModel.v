(** Model of files and streams (/repo/dessia_common/files.py) and of what objects and workflows write in
    them (/repo/dessia_common/core.py, workflow/core.py).

    A stream is its whole content and a position; those of the io module are modelled by the methods the
    code uses.  The text encoding (UTF-8) is a parameter.  On the file system of the model lines end with
    a line feed, so writing text does not translate it; reading text does. *)
From Coq Require Import Ascii String List Bool Arith ZArith.
From Verif Require Import Base AnnotationModel.
Import ListNotations.
Local Open Scope char_scope.
Local Open Scope list_scope.
Local Open Scope nat_scope.

Definition byte := nat.
Definition lf : ascii := ascii_of_nat 10.
Definition cr : ascii := ascii_of_nat 13.

(** The exception of opening a file that does not exist (FileNotFoundError). *)
Definition file_not_found : exn := EvalError 2.

(** [s.endswith(t)] *)
Definition ends_with (t s : str) : bool := str_eqb t (skipn (List.length s - List.length t) s) && (List.length t <=? List.length s).

(** A class of files: its name, its extension and what its template holds. *)
Record file_class (A : Type) := FileClass { class_name : str; extension : str; template : list A }.
Arguments FileClass {A}. Arguments class_name {A}. Arguments extension {A}. Arguments template {A}.

(** Instances: io.BytesIO and io.StringIO with a name. *)
Record stream (A : Type) := Stream { cls : file_class A; filename : str; content : list A; pos : nat }.
Arguments Stream {A}. Arguments cls {A}. Arguments filename {A}. Arguments content {A}. Arguments pos {A}.

Section Streams.
Context {A : Type}.
(** What is put between the end of a stream and the position, when it is further. *)
Variable null : A.

(** __init__, files.py:13-15 and 62-64 *)
Definition new_file (c : file_class A) (name : str) : stream A := Stream c name [] 0.
Definition seek (p : nat) (s : stream A) : stream A := Stream (cls s) (filename s) (content s) p.
(** [stream.write(data)] *)
Definition write (data : list A) (s : stream A) : stream A :=
  let before := firstn (pos s) (content s) ++ repeat null (pos s - List.length (content s)) in
  match data with
  | [] => s
  | _ => Stream (cls s) (filename s) (before ++ data ++ skipn (pos s + List.length data) (content s)) (pos s + List.length data)
  end.
(** [stream.read()] *)
Definition read (s : stream A) : list A * stream A :=
  (skipn (pos s) (content s), Stream (cls s) (filename s) (content s) (Nat.max (pos s) (List.length (content s)))).

(** copy, files.py:17-22 and 66-71 *)
Definition copy (s : stream A) : stream A :=
  seek 0 (write (content s) (new_file (cls s) (filename s))).
(** stream_template, files.py:24-28, 73-80, and the subclasses, 122-132, 162-170, 182-190 *)
Definition stream_template (c : file_class A) : stream A := seek 0 (write (template c) (new_file c [])).
(** The name given to a template, files.py:42-43 and 102-103 *)
Definition template_name (c : file_class A) (name : str) : str :=
  match extension c with
  | [] => name
  | e => if ends_with e name then name else name ++ chars "." ++ e
  end.
End Streams.

(** A stream of either kind. *)
Inductive any_stream := Bin (s : stream byte) | Txt (s : stream ascii).

Section Any.
Variable hash : str -> Z.
Definition name_of (x : any_stream) : str := match x with Bin s => filename s | Txt s => filename s end.
(** __hash__, files.py:49-50 and 109-110 *)
Definition file_hash (x : any_stream) : Z := hash (name_of x).
End Any.

Fixpoint bytes_eqb (l m : list byte) : bool :=
  match l, m with
  | [], [] => true
  | x :: l, y :: m => (x =? y) && bytes_eqb l m
  | _, _ => false
  end.
(** __eq__, files.py:52-54 and 112-114 *)
Definition file_eq (x y : any_stream) : bool :=
  match x, y with
  | Bin s, Bin t => bytes_eqb (content s) (content t) && str_eqb (filename s) (filename t)
  | Txt s, Txt t => str_eqb (content s) (content t) && str_eqb (filename s) (filename t)
  | _, _ => false
  end.

(** The file system *)
Definition disk := str -> option (list byte).
Definition store (path : str) (b : list byte) (d : disk) : disk := fun q => if str_eqb q path then Some b else d q.
Definition load (path : str) (d : disk) : res (list byte) := of_option file_not_found (d path).

(** Universal newlines: what reading text makes of the ends of lines. *)
Fixpoint newlines (s : str) : str :=
  match s with
  | [] => []
  | c :: r => if Ascii.eqb c cr
              then lf :: match r with d :: r' => if Ascii.eqb d lf then newlines r' else newlines r | [] => [] end
              else c :: newlines r
  end.

(** The classes of the module; [workbook] is the content of the workbook of XLSXFile.stream_template. *)
Section Classes.
Variable workbook : list byte.
Definition string_template : str :=
  chars "Text file template. Subclass the class dessia_common.files.StringFile to define your own filetype".
(** files.py:8-54 *)
Definition BinaryFile : file_class byte := FileClass (chars "BinaryFile") [] [].
(** files.py:57-114 *)
Definition StringFile : file_class ascii := FileClass (chars "StringFile") [] string_template.
(** files.py:117-150 *)
Definition XLSXFile : file_class byte := FileClass (chars "XLSXFile") (chars "xlsx") workbook.
Definition XLSFile : file_class byte := FileClass (chars "XLSFile") (chars "xls") [].
Definition XLSMFile : file_class byte := FileClass (chars "XLSMFile") (chars "xlsm") workbook.
Definition TextFile : file_class ascii := FileClass (chars "TextFile") (chars "txt") string_template.
(** files.py:153-170 *)
Definition CSVFile : file_class ascii := FileClass (chars "CSVFile") (chars "csv")
  ("""" :: chars "col A" ++ """" :: chars ", " ++ """" :: chars "col B" ++ """" :: chars ", " ++ """" :: chars "col C" ++ [""""; lf] ++
   """" :: chars "abc" ++ """" :: chars ", 1, 1.23" ++ [lf]).
(** files.py:173-190 *)
Definition MarkdownFile : file_class ascii := FileClass (chars "MarkdownFile") (chars "md")
  (chars "# Text file template." ++ [lf; lf]
   ++ chars "Subclass the class dessia_common.files.StringFile to define your own filetype").
(** files.py:193-208 *)
Definition JsonFile : file_class ascii := FileClass (chars "JsonFile") (chars "json") string_template.
Definition DocFile : file_class byte := FileClass (chars "DocFile") (chars "doc") [].
Definition DocxFile : file_class byte := FileClass (chars "DocxFile") (chars "docx") [].
End Classes.

Section Encoding.
(** UTF-8 *)
Variable encode : str -> list byte.
Variable decode : list byte -> res str.

Definition write_bytes := @write byte 0.
Definition write_text := @write ascii (ascii_of_nat 0).

(** BinaryFile.from_file, files.py:30-37 *)
Definition binary_from_file (c : file_class byte) (path : str) (d : disk) : res (stream byte) :=
  let* b := load path d in
  Ok (seek 0 (write_bytes b (new_file c path))).
(** StringFile.from_file, files.py:90-97 *)
Definition text_from_file (c : file_class ascii) (path : str) (d : disk) : res (stream ascii) :=
  let* b := load path d in
  let* s := decode b in
  Ok (seek 0 (write_text (newlines s) (new_file c path))).
(** StringFile.from_stream, files.py:82-88: texts have no decode. *)
Definition from_stream (c : file_class ascii) (x : any_stream) : res (stream ascii) :=
  match x with
  | Bin s => let* t := decode (fst (read s)) in Ok (seek 0 (write_text t (new_file StringFile [])))
  | Txt _ => Err AttributeError
  end.
(** save_template_to_file, files.py:39-47 and 99-107 *)
Definition save_binary_template (c : file_class byte) (path : str) (d : disk) : disk :=
  store (template_name c path) (content (stream_template 0 c)) d.
Definition save_text_template (c : file_class ascii) (path : str) (d : disk) : disk :=
  store (template_name c path) (encode (content (stream_template (ascii_of_nat 0) c))) d.

(** A text file opened for writing: it is empty. *)
Definition opened : stream ascii := new_file StringFile [].
(** Running [f] on a file opened with [open(path, 'w')]: the file is emptied first and holds what was
    written at the end, even when [f] raises. *)
Definition with_open {R} (path : str) (f : stream ascii -> res R * stream ascii) (d : disk) : res R * disk :=
  let r := f opened in (fst r, store path (encode (content (snd r))) d).

Section Json.
Context {obj json : Type}.
(** [to_dict(use_pointers=True)], [to_dict()], [cls.dict_to_object] *)
Variables to_dict_pointers to_dict : obj -> res json.
Variable dict_to_object : json -> res obj.
(** What json.dump writes, and the exception that stops it; json.loads. *)
Variable dump : json -> str * option exn.
Variable loads : str -> res json.

(** save_to_stream, core.py:228-236: a binary stream takes no text. *)
Definition to_dump (o : obj) : res json :=
  match to_dict_pointers o with Err TypeError => to_dict o | r => r end.
Definition save_to_text (o : obj) (s : stream ascii) : res unit * stream ascii :=
  match to_dump o with
  | Err e => (Err e, s)
  | Ok j => match dump j with
            | (t, Some e) => (Err e, write_text t s)
            | (t, None) => (Ok tt, write_text [lf] (write_text t s))
            end
  end.
Definition save_to_stream (o : obj) (x : any_stream) : res unit * any_stream :=
  match x with
  | Txt s => let r := save_to_text o s in (fst r, Txt (snd r))
  | Bin s => match to_dump o with Err e => (Err e, x) | Ok _ => (Err TypeError, x) end
  end.
(** The name of a file with an extension, core.py:222-224, 527-528, workflow/core.py:1383-1384 *)
Definition named (e path : str) : str := if ends_with e path then path else path ++ e.
(** save_to_file, core.py:216-226 *)
Definition save_to_file (o : obj) (path : str) (d : disk) : res unit * disk :=
  with_open (named (chars ".json") path) (save_to_text o) d.
(** from_json_stream, core.py:260-268 *)
Definition from_json_stream (x : any_stream) : res obj :=
  match x with
  | Bin s => let* t := decode (fst (read s)) in let* j := loads t in dict_to_object j
  | Txt _ => Err AttributeError
  end.
(** from_json, core.py:270-281 *)
Definition from_json (path : str) (d : disk) : res obj :=
  let* b := load path d in
  let* t := decode b in
  let* j := loads (newlines t) in
  dict_to_object j.
End Json.

(** Workflow.save_script_to_stream, workflow/core.py:1375-1379; [script] is to_script(). *)
Definition save_script_to_stream (script : res str) (s : stream ascii) : res unit * stream ascii :=
  match script with
  | Err e => (Err e, s)
  | Ok t => (Ok tt, write_text t (seek 0 s))
  end.
(** WorkflowRun.save_script_to_stream, workflow/core.py:2251-2257, with the imports and the declaration *)
Definition save_run_script_to_stream (script : res (str * str)) (s : stream ascii) : res unit * stream ascii :=
  match script with
  | Err e => (Err e, s)
  | Ok (imports, declaration) =>
      (Ok tt, write_text (declaration ++ [lf]) (write_text (imports ++ [lf]) (seek 0 s)))
  end.
(** save_script_to_file, workflow/core.py:1381-1386 and 2259-2265 *)
Definition save_script_to_file (f : stream ascii -> res unit * stream ascii) (path : str) (d : disk) : res unit * disk :=
  with_open (named (chars ".py") path) f d.
End Encoding.

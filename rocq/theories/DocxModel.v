(** Model of the making of Word documents from markdown text (/repo/dessia_common/document_generator.py).

    Characters are ASCII.  A document is the list of what was added to its body; python-docx itself is not
    modelled, but for the refusal of levels of headings that are not between 0 and 9. *)
From Coq Require Import Ascii String List Bool Arith.
From Verif Require Import Base AnnotationModel DocstringModel.
Import ListNotations.
Local Open Scope char_scope.
Local Open Scope list_scope.
Local Open Scope nat_scope.

(** ** Regular expressions *)
Inductive re := Void | Empty | One (f : ascii -> bool) | Seq (a b : re) | Alt (a b : re) | Star (a : re).
Fixpoint nullable (r : re) : bool :=
  match r with
  | Void | One _ => false
  | Empty | Star _ => true
  | Seq a b => nullable a && nullable b
  | Alt a b => nullable a || nullable b
  end.
Fixpoint derivative (c : ascii) (r : re) : re :=
  match r with
  | Void | Empty => Void
  | One f => if f c then Empty else Void
  | Seq a b => if nullable a then Alt (Seq (derivative c a) b) (derivative c b) else Seq (derivative c a) b
  | Alt a b => Alt (derivative c a) (derivative c b)
  | Star a => Seq (derivative c a) (Star a)
  end.
(** [re.compile('^...$').match(s)] for a text without line feed *)
Definition matches (r : re) (s : str) : bool := nullable (fold_left (fun r c => derivative c r) s r).
Definition lit (c : ascii) : re := One (Ascii.eqb c).
Definition opt (r : re) : re := Alt Empty r.
Definition plus (r : re) : re := Seq r (Star r).
Fixpoint seqs (l : list re) : re := match l with [] => Empty | r :: l => Seq r (seqs l) end.
Definition blanks : re := Star (One is_space).

(** ** Documents *)
Inductive item := DHeading (text : str) (level : nat) | DParagraph (text : str) | DPageBreak | DTable (rows : list (list str)).
Definition document := list item.
(** [Document.add_heading] of python-docx *)
Definition add_heading (text : str) (level : nat) (d : document) : res document :=
  if level <=? 9 then Ok (d ++ [DHeading text level]) else Err ValueError.

(** [s.strip(letters)], [s.count(c)] *)
Definition strip_of (f : ascii -> bool) (s : str) : str := rev (drop_while f (rev (drop_while f s))).
Definition count (c : ascii) (s : str) : nat := List.length (filter (Ascii.eqb c) s).

(** Heading, Paragraph, Table, document_generator.py:88-147 *)
Record heading := Heading { h_text : str; h_level : nat }.
Inductive element := Paragraph (text : str) | Table (rows : list (list str)).
(** Heading.from_markdown, 99-102 *)
Definition heading_from_markdown (s : str) : heading := Heading (strip_of (Ascii.eqb "#") s) (count "#" s).

(** table_pattern and horizontal_line_pattern, 280-281; [.] is any character but a line feed. *)
Definition table_pattern : re := seqs [lit "|"; Star (One (fun c => negb (Ascii.eqb c newline))); lit "|"].
Definition horizontal_line_pattern : re :=
  seqs [blanks; opt (lit "|"); blanks; plus (lit "-"); blanks; opt (lit "|"); blanks;
        Star (seqs [plus (lit "-"); blanks; opt (lit "|")]); blanks].

(** parse_markdown, 272-298 *)
Definition parse_line (acc : list heading * list element) (l : str) : list heading * list element :=
  let (headings, elements) := acc in
  let line := strip l in
  match line with
  | [] => acc
  | _ =>
    if starts_with ["#"] line then (headings ++ [heading_from_markdown line], elements ++ [Paragraph line])
    else if matches table_pattern line && negb (matches horizontal_line_pattern line)
    then let row := split_on "|" (strip_of (Ascii.eqb "|") line) in
         if contains (chars "---") line then acc else (headings, elements ++ [Table [row]])
    else if contains (chars "---") line then acc else (headings, elements ++ [Paragraph line])
  end.
Definition parse_markdown (text : str) : list heading * list element :=
  fold_left parse_line (split_on newline text) ([], []).

(** add_headings, 194-200, with its page break *)
Definition add_headings (headings : list heading) (d : document) : res document :=
  let* d := foldM (fun d h => add_heading (h_text h) (h_level h) d) headings d in
  Ok (d ++ [DPageBreak]).
(** add_paragraph_as_heading, 211-219 *)
Definition add_paragraph_as_heading (text : str) (d : document) : res document := add_heading text (count "#" text) d.
(** One element of from_markdown, 306-315; the table has a row, so it has a first one. *)
Definition add_element (d : document) (e : element) : res document :=
  match e with
  | Paragraph t => if starts_with ["#"] t
                   then add_paragraph_as_heading (strip_of (fun c => Ascii.eqb c " " || Ascii.eqb c "#") t) d
                   else Ok (d ++ [DParagraph t])
  | Table rows => Ok (d ++ [DTable rows])
  end.
(** from_markdown, 300-316 *)
Definition from_markdown (text : str) : res document :=
  let (headings, elements) := parse_markdown text in
  let* d := add_headings headings [] in
  foldM add_element elements d.

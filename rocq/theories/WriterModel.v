(** Model of the writing of Word documents (/repo/dessia_common/document_generator.py:122-146, 175-248).

    Texts are of any type.  A document is the list of what was added to its body.  Of python-docx: headings have levels
    up to 9, a table is the list of its cells row after row, and [table.cell(i, j)] is the one of number
    [j + i * columns]. *)
From Coq Require Import ZArith List Bool Arith.
From Verif Require Import Base.
Import ListNotations.
Open Scope nat_scope.

Section Writer.
Variable text : Type.
(** the empty text, and styles *)
Variable empty : text.
Variable style : Type.

Inductive item := Heading (t : text) (level : nat) | Paragraph (t : text) | ListItem (t : text) (s : style) | PageBreak
| Table (columns : nat) (cells : list text).
Definition document := list item.

(** [Document.add_heading] of python-docx *)
Definition document_add_heading (h : text * nat) (d : document) : res document :=
  if snd h <=? 9 then Ok (d ++ [Heading (fst h) (snd h)]) else Err ValueError.

(** [l[k] = x] *)
Fixpoint put {A} (k : nat) (x : A) (l : list A) : res (list A) :=
  match l with
  | [] => Err IndexError
  | y :: l' => match k with O => Ok (x :: l') | S k' => let* r := put k' x l' in Ok (y :: r) end
  end.
(** Table.add_to_document, document_generator.py:142-145 *)
Fixpoint write_row (columns i j : nat) (row : list text) (cells : list text) : res (list text) :=
  match row with
  | [] => Ok cells
  | c :: row' => let* cells := put (j + i * columns) c cells in write_row columns i (S j) row' cells
  end.
Fixpoint write_rows (columns i : nat) (rows : list (list text)) (cells : list text) : res (list text) :=
  match rows with
  | [] => Ok cells
  | row :: rows' => let* cells := write_row columns i 0 row cells in write_rows columns (S i) rows' cells
  end.
Definition table_add_to_document (rows : list (list text)) (d : document) : res document :=
  match rows with
  | [] => Err IndexError
  | row :: _ =>
    let columns := length row in
    let* cells := write_rows columns 0 rows (repeat empty (length rows * columns)) in
    Ok (d ++ [Table columns cells])
  end.

(** DocxWriter, document_generator.py:175-192, without its section *)
Record writer := { paragraphs : list text; headings : list (text * nat); tables : option (list (list (list text))); body : document }.
Definition with_body (w : writer) (d : document) : writer :=
  {| paragraphs := paragraphs w; headings := headings w; tables := tables w; body := d |}.

(** add_page_breaks, 221-224 *)
Definition add_page_breaks (n : nat) (w : writer) : writer := with_body w (body w ++ repeat PageBreak n).
(** add_headings, 194-200 *)
Definition add_headings (page_break : bool) (w : writer) : res writer :=
  let* d := foldM (fun d h => document_add_heading h d) (headings w) (body w) in
  let w := with_body w d in
  Ok (if page_break then add_page_breaks 1 w else w).
(** add_paragraphs, 202-209 *)
Fixpoint paragraphs_loop (add_heading : bool) (ps : list text) (hs : list (text * nat)) (d : document) : res (list (text * nat) * document) :=
  match ps with
  | [] => Ok (hs, d)
  | p :: ps' =>
    match hs with
    | h :: hs' =>
      if add_heading then let* d := document_add_heading h d in paragraphs_loop add_heading ps' hs' (d ++ [Paragraph p])
      else paragraphs_loop add_heading ps' hs (d ++ [Paragraph p])
    | [] => paragraphs_loop add_heading ps' [] (d ++ [Paragraph p])
    end
  end.
Definition add_paragraphs (add_heading : bool) (w : writer) : res writer :=
  let* r := paragraphs_loop add_heading (paragraphs w) (headings w) (body w) in
  Ok {| paragraphs := paragraphs w; headings := fst r; tables := tables w; body := snd r |}.
(** add_table, 226-234 *)
Definition add_table (add_all_tables : bool) (table_index : Z) (w : writer) : res writer :=
  if add_all_tables then
    let* ts := of_option TypeError (tables w) in
    let* d := foldM (fun d t => let* d := table_add_to_document t d in Ok (d ++ [Paragraph empty])) ts (body w) in
    Ok (with_body w d)
  else
    let* ts := of_option TypeError (tables w) in
    let* t := py_get ts table_index in
    let* d := table_add_to_document t (body w) in
    Ok (with_body w d).
(** add_list_items, 236-248 *)
Definition add_list_items (items : list text) (s : style) (w : writer) : writer :=
  with_body w (body w ++ map (fun t => ListItem t s) items).
End Writer.

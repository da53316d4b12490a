(** Model of the printing of datasets, Dataset.__str__ and its helpers
    (/repo/dessia_common/datatools/dataset.py).

    Texts are lists of ASCII characters.  Getting an attribute of an object is a parameter, as is the
    text of an entry of the matrix; the text of a value is the same through str and through an f-string. *)
From Coq Require Import Ascii String List Bool Arith.
From Verif Require Import Base AnnotationModel DocstringModel TableModel.
Import ListNotations.
Local Open Scope char_scope.
Local Open Scope list_scope.
Local Open Scope nat_scope.

Definition spaces (n : nat) : str := repeat " " n.
Definition line_feed : ascii := ascii_of_nat 10.
(** [str(n)] *)
Definition number (n : nat) : str := chars (nat_str n).
(** [s[:-1]], [s[-1]] of a text that is not empty *)
Definition but_last (s : str) : str := firstn (List.length s - 1) s.
Definition last_char (s : str) : str := skipn (List.length s - 1) s.
(** [s.capitalize()] *)
Definition capitalized (s : str) : str :=
  match s with [] => [] | c :: s => TableModel.upper c :: map TableModel.lower s end.

Section Printing.
Context {obj : Type}.
(** [str(getattr(object, attr))], None when there is no such attribute *)
Variable attribute : obj -> str -> option str.
(** [str(self.matrix[index][column])] *)
Variable entry : nat -> nat -> str.

(** What a dataset is made of here: its class, its name, [hex(id(self))], its objects and its common
    attributes. *)
Record dataset := Dataset
  { class_name : str; ds_name : str; address : str; objects : list obj; common : list str }.

(** _printed_attributes, dataset.py:208-211 *)
Definition printed_attributes (d : dataset) : list str :=
  if existsb (str_eqb (chars "name")) (common d) then common d else chars "name" :: common d.

(** _write_str_prefix, dataset.py:220-223 *)
Definition prefix (d : dataset) : str :=
  (class_name d ++ chars " " ++ (match ds_name d with [] => address d | n => n end) ++ chars ": ")
  ++ number (List.length (objects d)) ++ chars " samples, " ++ number (List.length (common d)) ++ chars " features".

(** The loop of _print_titles, dataset.py:229-244.  [odd] is odd_incr, None as long as it is not set;
    [last] is the index of the last attribute.  Gives the title and the attr_space of each column. *)
Fixpoint titles (attrs : list str) (idx last : nat) (odd : option nat) : res (str * list nat) :=
  match attrs with
  | [] => Ok ([], [])
  | attr :: rest =>
      let end_bar := if idx =? last then chars "|" else [] in
      let '(indentation, odd) :=
        if 16 <? List.length attr + 6 then (3, odd)
        else let i := 16 - List.length attr in (Nat.div i 2, Some (Nat.modulo i 2)) in
      let* o := of_option UnboundLocalError odd in
      let name_attr := spaces indentation ++ spaces o ++ capitalized attr ++ spaces indentation in
      let* r := titles rest (S idx) last odd in
      Ok (chars "|" ++ name_attr ++ end_bar ++ fst r, List.length name_attr :: snd r)
  end.

(** _print_titles, dataset.py:225-244 *)
Definition print_titles (d : dataset) : res (str * list nat) :=
  titles (printed_attributes d) 0 (List.length (printed_attributes d) - 1) None.

(** _get_printed_value, dataset.py:278-282 *)
Definition printed_value (d : dataset) (index : nat) (attr : str) : res str :=
  let* o := of_option IndexError (nth_error (objects d) index) in
  match attribute o attr with
  | Some v => Ok v
  | None => let* column := of_option ValueError (index_of str_eqb attr (common d)) in Ok (entry index column)
  end.

(** The loop of _print_object, dataset.py:249-265; [string] is what is printed so far. *)
Fixpoint print_cells (d : dataset) (index : nat) (attrs : list str) (space : list nat) (idx last : nat) (string : str)
  : res str :=
  match attrs with
  | [] => Ok string
  | attr :: rest =>
      let end_bar := if idx =? last then chars "|" else [] in
      let* v := printed_value d index attr in
      let* w := of_option IndexError (nth_error space idx) in
      let string := string ++ chars "|" ++ spaces (Nat.max (w - List.length v - 1) 1) in
      let string := string ++ firstn (w - 4) v in
      let string := if w - 3 <? List.length v then but_last string ++ chars "... "
                    else if List.length v =? w - 3 then string ++ last_char v ++ chars " "
                    else string ++ chars " " in
      print_cells d index rest space (S idx) last (string ++ end_bar)
  end.

(** _print_object, dataset.py:246-265 *)
Definition print_object (d : dataset) (index : nat) (space : list nat) : res str :=
  print_cells d index (printed_attributes d) space 0 (List.length (printed_attributes d) - 1) [].

(** _print_objects_slice, dataset.py:213-218; [count] is the number of objects of [self[key]]: the objects
    printed are those of the first positions, whatever the slice. *)
Definition print_slice (d : dataset) (count : nat) (space : list nat) : res str :=
  foldM (fun string index => let* line := print_object d index space in Ok (string ++ [line_feed] ++ line))
        (seq 0 count) [].

(** len(self[slice(0, 5)]) and len(self[slice(-5, len(self))]), dataset.py:198 and 205 *)
Definition head_count (d : dataset) : nat := List.length (firstn 5 (objects d)).
Definition tail_count (d : dataset) : nat := List.length (skipn (List.length (objects d) - 5) (objects d)).

(** __str__, dataset.py:186-206 *)
Definition str_dataset (d : dataset) : res str :=
  match objects d with
  | [] => Ok (prefix d)
  | _ =>
      let* ts := print_titles d in
      let '(title, space) := ts in
      let string := title in
      let string := string ++ [line_feed] ++ repeat "-" (List.length string) in
      let* first := print_slice d (head_count d) space in
      let string := string ++ first in
      let n := List.length (objects d) in
      let string := if 10 <? n
                    then string ++ [line_feed] ++ chars "+ " ++ number (n - 10) ++ chars " undisplayed object"
                         ++ repeat "s" (Nat.min (n - 10) 2 - 1) ++ chars "..."
                    else string in
      let* string := (if 5 <? n then let* more := print_slice d (tail_count d) space in Ok (string ++ more)
                      else Ok string) in
      Ok (prefix d ++ [line_feed] ++ string ++ [line_feed])
  end.
End Printing.
Arguments Dataset {obj}.
Arguments dataset : clear implicits.

(** Model of the tables of [MarkdownWriter], /repo/dessia_common/exports.py.

    Simplification: strings are made of ASCII characters and limits are natural
    numbers.  What a value is printed as ([_value_to_str]) is a parameter. *)
From Coq Require Import Ascii String DecimalString List Bool Arith.
From Verif Require Import Base.
Import ListNotations.
Open Scope list_scope.
Open Scope string_scope.
Open Scope nat_scope.

(** [f"{n}"] *)
Definition nat_str (n : nat) : string := NilZero.string_of_uint (Nat.to_uint n).

Definition newline : string := String (ascii_of_nat 10) "".

(** [''.join(strings)], [' | '.join(strings)] *)
Definition join (sep : string) (strings : list string) : string := String.concat sep strings.

Definition in_range (lo hi : ascii) (c : ascii) : bool :=
  (nat_of_ascii lo <=? nat_of_ascii c) && (nat_of_ascii c <=? nat_of_ascii hi).

Definition upper (c : ascii) : ascii :=
  if in_range "a" "z" c then ascii_of_nat (nat_of_ascii c - 32) else c.

Definition lower (c : ascii) : ascii :=
  if in_range "A" "Z" c then ascii_of_nat (nat_of_ascii c + 32) else c.

Fixpoint map_string (f : ascii -> ascii) (s : string) : string :=
  match s with EmptyString => EmptyString | String c s => String (f c) (map_string f s) end.

(** [str.capitalize] *)
Definition capitalize (s : string) : string :=
  match s with EmptyString => EmptyString | String c s => String (upper c) (map_string lower s) end.

Fixpoint repeat_string (s : string) (n : nat) : string :=
  match n with 0 => "" | S n => s ++ repeat_string s n end.

Section Writer.
Context {val : Type}.
Variable value_to_str : val -> string.
Variable print_limit : nat.
Variable table_limit : option nat.

(** [_string_in_table], exports.py:341-342 *)
Definition string_in_table (s : string) : string :=
  String.substring 0 print_limit s ++ (if print_limit <? String.length s then "..." else "").

(** [_head_table], exports.py:353-357 *)
Definition head_table (col_names : list string) : string :=
  ("| " ++ join " | " (map capitalize col_names) ++ " |" ++ newline)
  ++ repeat_string "| ------ " (List.length col_names) ++ "|" ++ newline.

(** [_table_line], exports.py:359-363 *)
Definition table_line (row : list val) : string :=
  fold_left (fun line value => line ++ " " ++ string_in_table (value_to_str value) ++ " |") row "|"
  ++ newline.

(** [_table_rows_from_content], exports.py:365-369 *)
Definition table_rows_from_content (content : list (list val)) : string :=
  fold_left (fun s row => s ++ table_line row) content "".

(** [content[-n:]]: everything when [n] is 0 *)
Definition last_rows (n : nat) (content : list (list val)) : list (list val) :=
  if n =? 0 then content else skipn (List.length content - n) content.

(** [_content_table], exports.py:371-387 *)
Definition content_table (content : list (list val)) : string :=
  match table_limit with
  | None => table_rows_from_content content
  | Some limit =>
      let half_table := Nat.div limit 2 in
      let table := table_rows_from_content (firstn half_table content) in
      if 1 <? limit then
        let table := if limit <? List.length content
                     then table ++ "| + " ++ nat_str (List.length content - limit)
                                ++ " unprinted elements | |" ++ newline
                     else table in
        if half_table <? List.length content then table ++ table_rows_from_content (last_rows half_table content)
        else table
      else table
  end.

(** [matrix_table], exports.py:399-402 *)
Definition matrix_table (matrix : list (list val)) (col_names : list string) : string :=
  join "" [head_table col_names; content_table matrix].
End Writer.

(** C67: files, streams and what is written in them. *)
From Coq Require Import Ascii String List Bool Arith ZArith Lia.
From Verif Require Import Base BaseProofs AnnotationModel AnnotationProofs FilesModel.
Import ListNotations.
Local Open Scope char_scope.
Local Open Scope list_scope.
Local Open Scope nat_scope.

(** [t] is the end of [s]. *)
Definition is_end (t s : str) : Prop := exists p, s = p ++ t.
(** Text that reading does not change: no carriage return. *)
Definition plain (s : str) : Prop := ~ In cr s.

Lemma ends_with_iff t s : ends_with t s = true <-> is_end t s.
Proof.
  unfold ends_with, is_end. rewrite andb_true_iff, str_eqb_eq, Nat.leb_le. split.
  - intros [E _]. exists (firstn (List.length s - List.length t) s). rewrite E at 2. symmetry. apply firstn_skipn.
  - intros [p ->]. rewrite app_length. replace (List.length p + List.length t - List.length t) with (List.length p) by lia.
    rewrite skipn_app, Nat.sub_diag, skipn_all. split; [reflexivity|lia].
Qed.
Lemma ends_with_false t s : ends_with t s = false <-> ~ is_end t s.
Proof. rewrite <- ends_with_iff. destruct (ends_with t s); split; congruence. Qed.

Lemma skipn_twice {A} (l : list A) : forall m n, skipn m (skipn n l) = skipn (m + n) l.
Proof.
  intros m n. revert l. induction n as [|n IH]; intros l; [rewrite Nat.add_0_r; reflexivity|]. rewrite Nat.add_succ_r.
  destruct l; cbn [skipn]; [destruct m; reflexivity|apply IH].
Qed.

Lemma write_new {A} (null : A) data c name : write null data (new_file c name) = Stream c name data (List.length data).
Proof. unfold write, new_file. cbn. destruct data as [|x data]; [reflexivity|]. cbn. rewrite app_nil_r. reflexivity. Qed.

Lemma write_end {A} (null : A) data s : pos s = List.length (content s) ->
  write null data s = Stream (cls s) (filename s) (content s ++ data) (List.length (content s ++ data)).
Proof.
  intros H. unfold write. rewrite H, firstn_all, Nat.sub_diag, app_length. destruct data as [|x data].
  - rewrite app_nil_r. cbn. rewrite Nat.add_0_r. rewrite <- H. destruct s; reflexivity.
  - rewrite skipn_all2 by lia. cbn [repeat]. rewrite !app_nil_r. reflexivity.
Qed.

(** A copy is equal to its file, of the same class, and read from its start; and whatever is written in
    one leaves the other as it is (files are values here: nothing is shared). *)
Theorem C67_copy : forall A (null : A) (s : stream A),
  content (copy null s) = content s /\ filename (copy null s) = filename s /\ cls (copy null s) = cls s /\
  fst (read (copy null s)) = content s.
Proof. intros A null s. unfold copy. rewrite write_new. repeat split; reflexivity. Qed.

Lemma bytes_eqb_eq l : forall m, bytes_eqb l m = true <-> l = m.
Proof.
  induction l as [|x l IH]; intros [|y m]; cbn [bytes_eqb]; try (split; congruence).
  rewrite andb_true_iff, Nat.eqb_eq, IH. split; [intros [-> ->]; reflexivity|intros E; injection E; auto].
Qed.

(** Files are equal when they are of the same kind with the same content and name, whatever their class
    and position. *)
Theorem C67_equal : forall x y, file_eq x y = true <->
  (exists s t, x = Bin s /\ y = Bin t /\ content s = content t /\ filename s = filename t) \/
  (exists s t, x = Txt s /\ y = Txt t /\ content s = content t /\ filename s = filename t).
Proof.
  intros [s|s] [t|t]; cbn [file_eq]; rewrite ?andb_true_iff, ?bytes_eqb_eq, ?str_eqb_eq; split.
  - intros []. left. exists s, t. auto.
  - intros [(a & b & Ea & Eb & H)|(a & b & Ea & _)]; [|discriminate]. injection Ea as ->. injection Eb as ->. auto.
  - discriminate.
  - intros [(a & b & Ea & Eb & H)|(a & b & Ea & _)]; discriminate.
  - discriminate.
  - intros [(a & b & Ea & Eb & H)|(a & b & Ea & Eb & H)]; discriminate.
  - intros []. right. exists s, t. auto.
  - intros [(a & b & Ea & Eb & H)|(a & b & Ea & Eb & H)]; [discriminate|]. injection Ea as ->. injection Eb as ->. auto.
Qed.

(** So equality is an equivalence, equal files have the same hash and a copy is equal. *)
Theorem C67_equivalence :
  (forall x, file_eq x x = true) /\ (forall x y, file_eq x y = file_eq y x) /\
  (forall x y z, file_eq x y = true -> file_eq y z = true -> file_eq x z = true) /\
  (forall hash x y, file_eq x y = true -> file_hash hash x = file_hash hash y) /\
  (forall s, file_eq (Bin (copy 0 s)) (Bin s) = true) /\
  (forall s, file_eq (Txt (copy (ascii_of_nat 0) s)) (Txt s) = true).
Proof.
  assert (S : forall x y, file_eq x y = true -> file_eq y x = true).
  { intros x y H. apply C67_equal in H. apply C67_equal. destruct H as [(s & t & -> & -> & H & K)|(s & t & -> & -> & H & K)]; [left|right]; exists t, s; auto. }
  split; [|split; [|split; [|split; [|split]]]].
  - intros [s|s]; apply C67_equal; [left|right]; exists s, s; auto.
  - intros x y. destruct (file_eq x y) eqn:E; [symmetry; auto|]. destruct (file_eq y x) eqn:F; auto. apply S in F. congruence.
  - intros x y z H K. apply C67_equal in H. apply C67_equal in K. apply C67_equal.
    destruct H as [(s & t & -> & -> & H & H')|(s & t & -> & -> & H & H')], K as [(s' & t' & E & -> & K & K')|(s' & t' & E & -> & K & K')]; try discriminate;
      injection E as <-; [left|right]; exists s, t'; repeat split; congruence.
  - intros hash x y H. apply C67_equal in H. unfold file_hash. f_equal.
    destruct H as [(s & t & -> & -> & H & H')|(s & t & -> & -> & H & H')]; exact H'.
  - intros s. apply C67_equal. left. exists (copy 0 s), s. destruct (C67_copy _ 0 s) as (H1 & H2 & _). auto.
  - intros s. apply C67_equal. right. exists (copy (ascii_of_nat 0) s), s. destruct (C67_copy _ (ascii_of_nat 0) s) as (H1 & H2 & _). auto.
Qed.

(** Files of different classes can be equal. *)
Example equal_classes : file_eq (Txt (Stream CSVFile (chars "a") (chars "x") 0)) (Txt (Stream TextFile (chars "a") (chars "x") 1)) = true /\
  CSVFile <> TextFile.
Proof. split; [reflexivity|discriminate]. Qed.

Lemma newlines_plain s : plain s -> newlines s = s.
Proof.
  induction s as [|c s IH]; intros H; [reflexivity|]. cbn [newlines]. destruct (Ascii.eqb_spec c cr) as [->|].
  - exfalso. apply H. left. auto.
  - rewrite IH; auto. intros K. apply H. right. auto.
Qed.
Lemma newlines_no_cr s : plain (newlines s).
Proof.
  enough (G : forall n s, List.length s <= n -> plain (newlines s)) by (apply (G (List.length s)); auto).
  clear s. induction n as [|n IH]; intros [|c s] L; cbn [newlines List.length] in *; try lia; try (intros []; fail).
  destruct (Ascii.eqb_spec c cr) as [->|N].
  - intros [H|H]; [discriminate|]. destruct s as [|d s]; [destruct H|]. cbn [List.length] in L.
    destruct (Ascii.eqb d lf).
    + apply (IH s) in H; auto. lia.
    + apply (IH (d :: s)) in H; auto. cbn. lia.
  - intros [H|H]; [auto|]. apply (IH s) in H; auto. lia.
Qed.

Section C67.
Variable encode : str -> list byte.
Variable decode : list byte -> res str.

(** A binary file is read as it is, under its path. *)
Theorem C67_binary_file : forall (c : file_class byte) path (d : disk),
  (forall b, d path = Some b -> exists s, binary_from_file c path d = Ok s /\ cls s = c /\ filename s = path /\ content s = b /\ fst (read s) = b) /\
  (d path = None -> binary_from_file c path d = Err file_not_found).
Proof.
  intros c path d. unfold binary_from_file, load. split; [intros b H|intros H]; rewrite H; cbn [of_option bind]; [|reflexivity].
  unfold write_bytes. rewrite write_new. eexists. repeat split; reflexivity.
Qed.

(** A text file is read decoded, with its ends of lines translated: a text without carriage return
    comes back as it is. *)
Theorem C67_text_file : forall (c : file_class ascii) path (d : disk) b, d path = Some b ->
  (forall t, decode b = Ok t -> exists s, text_from_file decode c path d = Ok s /\ cls s = c /\ filename s = path /\
     plain (content s) /\ fst (read s) = content s /\ (plain t -> content s = t)) /\
  (forall e, decode b = Err e -> text_from_file decode c path d = Err e).
Proof.
  intros c path d b H. unfold text_from_file, load. rewrite H. cbn [of_option bind]. split; [intros t Ht|intros e He].
  - rewrite Ht. cbn [bind]. unfold write_text. rewrite write_new. eexists. repeat split; try reflexivity; cbn [content].
    + apply newlines_no_cr.
    + apply newlines_plain.
  - rewrite He. reflexivity.
Qed.

(** from_stream gives what is left to read in a binary stream; but it is always a StringFile without a
    name, whatever the class it is called on, and a text stream cannot be given. *)
Theorem C67_from_stream_refuted : forall (c : file_class ascii),
  (forall s t, decode (skipn (pos s) (content s)) = Ok t ->
     exists r, from_stream decode c (Bin s) = Ok r /\ content r = t /\ pos r = 0 /\ cls r = StringFile /\ filename r = []) /\
  (forall s e, decode (skipn (pos s) (content s)) = Err e -> from_stream decode c (Bin s) = Err e) /\
  (forall s, from_stream decode c (Txt s) = Err AttributeError).
Proof.
  intros c. unfold from_stream. cbn [read fst]. split; [|split].
  - intros s t H. rewrite H. cbn [bind]. unfold write_text. rewrite write_new. eexists. repeat split; reflexivity.
  - intros s e H. rewrite H. reflexivity.
  - reflexivity.
Qed.

(** The two ways of reading text do not agree: a carriage return is kept by from_stream only. *)
Theorem C67_newlines_refuted : (forall t, decode (encode t) = Ok t) ->
  exists (d : disk) path b s r, binary_from_file BinaryFile path d = Ok b /\ from_stream decode TextFile (Bin b) = Ok r /\
    text_from_file decode TextFile path d = Ok s /\ content s <> content r.
Proof.
  intros HD. exists (store [] (encode [cr; lf]) (fun _ => None)), [].
  unfold binary_from_file, text_from_file, load, store, from_stream. cbn [str_eqb of_option bind].
  unfold write_bytes, write_text. rewrite write_new, HD. cbn [bind]. rewrite write_new. do 3 eexists.
  split; [reflexivity|]. cbn [seek read content pos fst skipn]. rewrite HD. cbn [bind]. split; [rewrite write_new; reflexivity|]. split; [reflexivity|]. discriminate.
Qed.

(** The template of a class is written under the given name, followed by the extension of the class when
    the name does not end with it; reading this file with the same class gives the template back,
    under its name; other files are left as they are. *)
Definition right_name (e name final : str) : Prop :=
  (e = [] /\ final = name) \/ (e <> [] /\ is_end e name /\ final = name) \/ (e <> [] /\ ~ is_end e name /\ final = name ++ "." :: e).

Lemma template_name_right {A} (c : file_class A) name : right_name (extension c) name (template_name c name).
Proof.
  unfold template_name, right_name. destruct (extension c) as [|x e]; [left; auto|right].
  destruct (ends_with (x :: e) name) eqn:E; [apply ends_with_iff in E; left|apply ends_with_false in E; right]; repeat split; auto; discriminate.
Qed.

Theorem C67_text_template : (forall t, decode (encode t) = Ok t) -> forall (c : file_class ascii) name (d : disk), plain (template c) ->
  let d' := save_text_template encode c name d in
  exists final s, right_name (extension c) name final /\ text_from_file decode c final d' = Ok s /\
    content s = template c /\ file_eq (Txt s) (Txt (Stream c final (content (stream_template (ascii_of_nat 0) c)) 0)) = true /\
    forall other, other <> final -> d' other = d other.
Proof.
  intros HD c name d HP d'. exists (template_name c name).
  assert (E : content (stream_template (ascii_of_nat 0) c) = template c) by (unfold stream_template; rewrite write_new; reflexivity).
  unfold d', save_text_template, text_from_file, load, store. rewrite (proj2 (str_eqb_eq _ _) eq_refl), E. cbn [of_option bind].
  rewrite HD. cbn [bind]. unfold write_text. rewrite write_new, newlines_plain by auto. eexists.
  split; [apply template_name_right|]. split; [reflexivity|]. split; [reflexivity|]. split.
  - apply C67_equal. right. do 2 eexists. repeat split.
  - intros other H. destruct (str_eqb other (template_name c name)) eqn:K; auto. apply str_eqb_eq in K. contradiction.
Qed.

Theorem C67_binary_template : forall (c : file_class byte) name (d : disk),
  let d' := save_binary_template c name d in
  exists final s, right_name (extension c) name final /\ binary_from_file c final d' = Ok s /\ content s = template c /\
    forall other, other <> final -> d' other = d other.
Proof.
  intros c name d d'. exists (template_name c name).
  assert (E : content (stream_template 0 c) = template c) by (unfold stream_template; rewrite write_new; reflexivity).
  unfold d', save_binary_template, binary_from_file, load, store. rewrite (proj2 (str_eqb_eq _ _) eq_refl), E. cbn [of_option bind].
  unfold write_bytes. rewrite write_new. eexists. split; [apply template_name_right|]. split; [reflexivity|]. split; [reflexivity|].
  intros other H. destruct (str_eqb other (template_name c name)) eqn:K; auto. apply str_eqb_eq in K. contradiction.
Qed.

(** Templates of the classes of the module have no carriage return. *)
Theorem C67_templates_plain : Forall (fun c : file_class ascii => plain (template c)) [StringFile; TextFile; CSVFile; MarkdownFile; JsonFile].
Proof.
  assert (G : forall s, forallb (fun c => negb (Ascii.eqb c cr)) s = true -> plain s).
  { intros s H K. rewrite forallb_forall in H. apply H in K. rewrite Ascii.eqb_refl in K. discriminate. }
  repeat constructor; apply G; vm_compute; reflexivity.
Qed.

(** The template of a class is read from its start and belongs to the class, without a name. *)
Theorem C67_stream_template : forall A (null : A) (c : file_class A),
  fst (read (stream_template null c)) = template c /\ cls (stream_template null c) = c /\ filename (stream_template null c) = [].
Proof. intros A null c. unfold stream_template. rewrite write_new. repeat split. Qed.

(** Names and extensions of the classes of the module, and what the templates of text files say; the other
    binary files have empty templates. *)
Theorem C67_classes : forall workbook,
  map (fun c : file_class byte => (string_of_list_ascii (class_name c), string_of_list_ascii (extension c)))
      [BinaryFile; XLSXFile workbook; XLSFile; XLSMFile workbook; DocFile; DocxFile]
  = [("BinaryFile", ""); ("XLSXFile", "xlsx"); ("XLSFile", "xls"); ("XLSMFile", "xlsm"); ("DocFile", "doc"); ("DocxFile", "docx")]%string /\
  map (@template byte) [BinaryFile; XLSXFile workbook; XLSFile; XLSMFile workbook; DocFile; DocxFile] = [[]; workbook; []; workbook; []; []] /\
  map (fun c : file_class ascii => (string_of_list_ascii (class_name c), string_of_list_ascii (extension c)))
      [StringFile; TextFile; CSVFile; MarkdownFile; JsonFile]
  = [("StringFile", ""); ("TextFile", "txt"); ("CSVFile", "csv"); ("MarkdownFile", "md"); ("JsonFile", "json")]%string /\
  map (fun c => string_of_list_ascii (template c)) [StringFile; TextFile; JsonFile]
  = repeat "Text file template. Subclass the class dessia_common.files.StringFile to define your own filetype"%string 3 /\
  string_of_list_ascii (template CSVFile) = """col A"", ""col B"", ""col C""
""abc"", 1, 1.23
"%string /\
  string_of_list_ascii (template MarkdownFile) = "# Text file template.

Subclass the class dessia_common.files.StringFile to define your own filetype"%string.
Proof. intros workbook. repeat split. Qed.

(** A name that ends with the letters of the extension, without the dot, gets no extension. *)
Theorem C67_extension_refuted : forall (c : file_class ascii) (d : disk) stem, extension c <> [] ->
  save_text_template encode c (stem ++ extension c) d = store (stem ++ extension c) (encode (template c)) d.
Proof.
  intros c d stem H. unfold save_text_template, template_name, stream_template. rewrite write_new. cbn [seek content].
  destruct (extension c) eqn:E; [congruence|]. rewrite (proj2 (ends_with_iff _ _)); [reflexivity|]. exists stem. auto.
Qed.

(** ** Objects in JSON *)
Section Json.
Context {obj json : Type}.
Variables to_dict_pointers to_dict : obj -> res json.
Variable dict_to_object : json -> res obj.
Variable dump : json -> str * option exn.
Variable loads : str -> res json.

(** What is saved: the dictionary with pointers, or without them when making them raises a TypeError. *)
Definition dictionary (o : obj) (j : json) : Prop :=
  to_dict_pointers o = Ok j \/ (to_dict_pointers o = Err TypeError /\ to_dict o = Ok j).
Definition no_dictionary (o : obj) (e : exn) : Prop :=
  (to_dict_pointers o = Err e /\ e <> TypeError) \/ (to_dict_pointers o = Err TypeError /\ to_dict o = Err e).

Lemma to_dump_ok o j : dictionary o j -> to_dump to_dict_pointers to_dict o = Ok j.
Proof. unfold dictionary, to_dump. intros [->|[-> ->]]; reflexivity. Qed.
Lemma to_dump_err o e : no_dictionary o e -> to_dump to_dict_pointers to_dict o = Err e.
Proof. unfold no_dictionary, to_dump. intros [[-> H]|[-> ->]]; [destruct e; congruence|reflexivity]. Qed.

Definition right_path (e path final : str) : Prop := (is_end e path /\ final = path) \/ (~ is_end e path /\ final = path ++ e).
Lemma named_right e path : right_path e path (named e path).
Proof.
  unfold named, right_path. destruct (ends_with e path) eqn:E; [apply ends_with_iff in E|apply ends_with_false in E]; auto.
Qed.

(** Saving to a file then reading it gives the object of the dictionary, when json reads what it writes
    and writes no carriage return; the file is the given one with .json at its end; others are left. *)
Theorem C67_json_file : (forall t, decode (encode t) = Ok t) ->
  forall o j t path (d : disk), dictionary o j -> dump j = (t, None) -> plain t -> loads (t ++ [lf]) = Ok j ->
  exists final d', save_to_file encode to_dict_pointers to_dict dump o path d = (Ok tt, d') /\
    right_path (chars ".json") path final /\ from_json decode dict_to_object loads final d' = dict_to_object j /\
    forall other, other <> final -> d' other = d other.
Proof.
  intros HD o j t path d Hj Ht Hp Hl. exists (named (chars ".json") path).
  unfold save_to_file, with_open, save_to_text. rewrite (to_dump_ok _ _ Hj), Ht. eexists. split; [reflexivity|]. split; [apply named_right|].
  unfold opened, write_text. rewrite write_new. rewrite write_end by reflexivity. cbn [snd content cls filename].
  split; [|intros other H; unfold store; destruct (str_eqb other _) eqn:K; auto; apply str_eqb_eq in K; contradiction].
  unfold from_json, load, store. rewrite (proj2 (str_eqb_eq _ _) eq_refl). cbn [of_option bind]. rewrite HD. cbn [bind].
  rewrite newlines_plain; [rewrite Hl; reflexivity|]. intros K. apply in_app_or in K as [K|[K|[]]]; [exact (Hp K)|discriminate].
Qed.

(** A save that fails loses what the file held: it is empty when there is no dictionary, and ends where
    json stopped otherwise. *)
Theorem C67_failed_save_refuted : forall o path (d : disk),
  (forall e, no_dictionary o e -> exists d' final, save_to_file encode to_dict_pointers to_dict dump o path d = (Err e, d') /\
     right_path (chars ".json") path final /\ d' final = Some (encode [])) /\
  (forall j t e, dictionary o j -> dump j = (t, Some e) -> exists d' final,
     save_to_file encode to_dict_pointers to_dict dump o path d = (Err e, d') /\
     right_path (chars ".json") path final /\ d' final = Some (encode t)).
Proof.
  intros o path d. split.
  - intros e H. unfold save_to_file, with_open, save_to_text. rewrite (to_dump_err _ _ H).
    do 2 eexists. split; [reflexivity|]. split; [apply named_right|]. unfold store. rewrite (proj2 (str_eqb_eq _ _) eq_refl). reflexivity.
  - intros j t e Hj Ht. unfold save_to_file, with_open, save_to_text. rewrite (to_dump_ok _ _ Hj), Ht.
    do 2 eexists. split; [reflexivity|]. split; [apply named_right|]. unfold store. rewrite (proj2 (str_eqb_eq _ _) eq_refl).
    unfold write_text, opened. rewrite write_new. reflexivity.
Qed.

(** In a text stream, the text is written at the position. *)
Theorem C67_json_text : forall o j t s, dictionary o j -> dump j = (t, None) -> pos s = List.length (content s) ->
  exists s', save_to_stream to_dict_pointers to_dict dump o (Txt s) = (Ok tt, Txt s') /\
    content s' = content s ++ t ++ [lf] /\ pos s' = List.length (content s') /\ filename s' = filename s.
Proof.
  intros o j t s Hj Ht Hp. unfold save_to_stream, save_to_text. rewrite (to_dump_ok _ _ Hj), Ht. cbn [fst snd]. unfold write_text.
  rewrite (write_end _ t s) by auto. rewrite write_end by reflexivity. eexists. split; [reflexivity|]. cbn [content pos filename].
  rewrite <- !app_assoc. auto.
Qed.

(** No stream can be written then read: a binary stream takes no text, and text has no decode. *)
Theorem C67_json_stream_refuted : forall o x x', save_to_stream to_dict_pointers to_dict dump o x = (Ok tt, x') ->
  from_json_stream decode dict_to_object loads x' = Err AttributeError.
Proof.
  intros o [s|s] x'; unfold save_to_stream.
  - destruct (to_dump _ _ o); discriminate.
  - intros H. injection H as _ <-. reflexivity.
Qed.

(** The bytes of the text that is saved can be read. *)
Theorem C67_json_bytes : (forall t, decode (encode t) = Ok t) ->
  forall o j t s b, dictionary o j -> dump j = (t, None) -> loads (t ++ [lf]) = Ok j -> content s = [] -> pos s = 0 ->
  forall s', save_to_stream to_dict_pointers to_dict dump o (Txt s) = (Ok tt, Txt s') ->
  content b = encode (content s') -> pos b = 0 ->
  from_json_stream decode dict_to_object loads (Bin b) = dict_to_object j.
Proof.
  intros HD o j t s b Hj Ht Hl Es Ep s' H Hb Hp.
  destruct (C67_json_text o j t s Hj Ht) as (s2 & E & C & _); [rewrite Ep, Es; reflexivity|].
  rewrite E in H. injection H as <-. unfold from_json_stream. cbn [read fst]. rewrite Hp, Hb, C, Es. cbn [skipn app]. rewrite HD.
  cbn [bind]. rewrite Hl. reflexivity.
Qed.

(** A save to a stream that fails leaves the stream, but for what json wrote before it raised in a text stream. *)
Theorem C67_stream_failures : forall o x,
  (forall e, no_dictionary o e -> save_to_stream to_dict_pointers to_dict dump o x = (Err e, x)) /\
  (forall j s, dictionary o j -> x = Bin s -> save_to_stream to_dict_pointers to_dict dump o x = (Err TypeError, x)) /\
  (forall j t e s, dictionary o j -> dump j = (t, Some e) -> x = Txt s -> pos s = List.length (content s) ->
     exists s', save_to_stream to_dict_pointers to_dict dump o x = (Err e, Txt s') /\ content s' = content s ++ t).
Proof.
  intros o x. unfold save_to_stream, save_to_text. repeat split.
  - intros e H. destruct x; rewrite (to_dump_err _ _ H); reflexivity.
  - intros j s H ->. rewrite (to_dump_ok _ _ H). reflexivity.
  - intros j t e s H D -> P. rewrite (to_dump_ok _ _ H), D. cbn [fst snd]. unfold write_text. rewrite (write_end _ t s) by auto. eexists. split; reflexivity.
Qed.
End Json.

(** Writing further than the end of a stream fills it with zeros; nothing is added when nothing is written. *)
Theorem C67_gap : (forall b (s : stream byte), b <> [] -> List.length (content s) <= pos s ->
    content (write_bytes b s) = content s ++ repeat 0 (pos s - List.length (content s)) ++ b) /\
  (forall t (s : stream ascii), t <> [] -> List.length (content s) <= pos s ->
    content (write_text t s) = content s ++ repeat "000"%char (pos s - List.length (content s)) ++ t) /\
  (forall s, write_bytes [] s = s) /\ (forall s, write_text [] s = s).
Proof.
  assert (G : forall A (null : A) l s, l <> [] -> List.length (content s) <= pos s ->
    content (write null l s) = content s ++ repeat null (pos s - List.length (content s)) ++ l).
  { intros A null l s N L. unfold write. destruct l as [|x l]; [congruence|]. cbn [content]. rewrite firstn_all2 by auto. rewrite skipn_all2 by lia.
    rewrite app_nil_r, <- app_assoc. reflexivity. }
  unfold write_bytes, write_text. split; [apply G|]. split; [apply G|]. split; reflexivity.
Qed.

(** A script that cannot be made leaves the stream. *)
Theorem C67_no_script : forall e s, save_script_to_stream (Err e) s = (Err e, s) /\ save_run_script_to_stream (Err e) s = (Err e, s).
Proof. split; reflexivity. Qed.

(** ** Scripts *)
(** A script is written from the start of the stream and what is further is left: the stream holds the
    script exactly when what it held was no longer. *)
Theorem C67_script_refuted : forall script s,
  exists s', save_script_to_stream (Ok script) s = (Ok tt, s') /\
    content s' = script ++ skipn (List.length script) (content s) /\
    (content s' = script <-> List.length (content s) <= List.length script).
Proof.
  intros script s. eexists. split; [reflexivity|].
  assert (E : content (write_text script (seek 0 s)) = script ++ skipn (List.length script) (content s)).
  { unfold write_text, write, seek. cbn [pos content firstn Nat.sub repeat app Nat.add]. destruct script; reflexivity. }
  split; [exact E|]. rewrite E. split.
  - intros H. pose proof (f_equal (@List.length ascii) H) as L. rewrite app_length, skipn_length in L. lia.
  - intros H. rewrite skipn_all2 by auto. apply app_nil_r.
Qed.

Theorem C67_run_script : forall imports declaration s,
  exists s', save_run_script_to_stream (Ok (imports, declaration)) s = (Ok tt, s') /\
    content s' = (imports ++ [lf] ++ declaration ++ [lf]) ++ skipn (List.length (imports ++ [lf] ++ declaration ++ [lf])) (content s).
Proof.
  intros imports declaration s. eexists. split; [reflexivity|]. unfold write_text.
  assert (E : forall data (s : stream ascii), data <> [] -> pos s <= List.length (content s) ->
     write (ascii_of_nat 0) data s = Stream (cls s) (filename s) (firstn (pos s) (content s) ++ data ++ skipn (pos s + List.length data) (content s)) (pos s + List.length data)).
  { intros data st Hd Hl. unfold write. replace (pos st - List.length (content st)) with 0 by lia. cbn [repeat]. rewrite app_nil_r. destruct data; [congruence|reflexivity]. }
  rewrite (E (imports ++ [lf])); [|destruct imports; discriminate|cbn; lia]. cbn [seek pos content cls filename firstn app Nat.add].
  rewrite E; [|destruct declaration; discriminate|cbn [pos content]; rewrite !app_length; lia]. cbn [pos content cls filename].
  rewrite firstn_app, Nat.sub_diag, firstn_all. cbn [firstn]. rewrite app_nil_r.
  rewrite skipn_app, skipn_all2 by lia. cbn [app]. rewrite skipn_twice.
  match goal with |- context [skipn ?n (content s)] => match n with _ - _ + _ => replace n with (List.length (imports ++ [lf] ++ declaration ++ [lf])) end end.
  2: { rewrite !app_length. cbn [List.length]. lia. }
  cbn [app]. rewrite <- !app_assoc. cbn [app]. rewrite <- ?app_assoc. reflexivity.
Qed.

(** In a file, which is emptied first, the script is all there is. *)
Theorem C67_script_file : forall script path (d : disk),
  exists final d', save_script_to_file encode (save_script_to_stream (Ok script)) path d = (Ok tt, d') /\
    right_path (chars ".py") path final /\ d' final = Some (encode script) /\ forall other, other <> final -> d' other = d other.
Proof.
  intros script path d. unfold save_script_to_file, with_open. do 2 eexists. split; [reflexivity|]. split; [apply named_right|].
  split; [|intros other H; unfold store; destruct (str_eqb other _) eqn:K; auto; apply str_eqb_eq in K; contradiction].
  unfold store. rewrite (proj2 (str_eqb_eq _ _) eq_refl). destruct (C67_script_refuted script opened) as (s' & E & _ & C).
  rewrite E. cbn [snd]. rewrite (proj2 C) by (cbn; lia). reflexivity.
Qed.
End C67.

(** ** Examples *)
Definition latin (s : str) : list byte := map nat_of_ascii s.
Definition unlatin (b : list byte) : res str := Ok (map ascii_of_nat b).
Lemma latin_back t : unlatin (latin t) = Ok t.
Proof. unfold unlatin, latin. rewrite map_map. f_equal. rewrite <- (map_id t) at 2. apply map_ext. intros; apply ascii_nat_embedding. Qed.

(** An object that is a text, saved in quotes. *)
Definition dump_text (s : str) : str * option exn := ("""" :: s ++ [""""], None).
Definition loads_text (s : str) : res str := match s with """" :: r => Ok (firstn (List.length r - 2) r) | _ => Err ValueError end.
Example json_case : let d := fun _ => None in
  exists d', save_to_file latin Ok Ok dump_text (chars "car") (chars "file") d = (Ok tt, d') /\
    d' (chars "file.json") = Some (latin (("""" :: chars "car") ++ [""""; lf])) /\ d' (chars "file") = None /\
    from_json unlatin Ok loads_text (chars "file.json") d' = Ok (chars "car").
Proof. cbv zeta. eexists. split; [reflexivity|]. vm_compute. auto. Qed.
Example script_case : save_script_to_stream (Ok (chars "ab")) (Stream StringFile [] (chars "wxyz") 3) = (Ok tt, Stream StringFile [] (chars "abyz") 2).
Proof. reflexivity. Qed.
Example extension_case : template_name CSVFile (chars "foocsv") = chars "foocsv" /\ template_name CSVFile (chars "foo") = chars "foo.csv" /\
  template_name CSVFile (chars "foo.csv") = chars "foo.csv".
Proof. repeat split. Qed.
Example failed_case : let d := store (chars "a.json") [1; 2] (fun _ => None) in
  fst (save_to_file latin (fun _ : nat => Err TypeError) (fun _ => Err ValueError) dump_text 0 (chars "a.json") d) = Err ValueError /\
  snd (save_to_file latin (fun _ : nat => Err TypeError) (fun _ => Err ValueError) dump_text 0 (chars "a.json") d) (chars "a.json") = Some [].
Proof. split; reflexivity. Qed.

Print Assumptions C67_copy.
Print Assumptions C67_equal.
Print Assumptions C67_equivalence.
Print Assumptions C67_binary_file.
Print Assumptions C67_text_file.
Print Assumptions C67_from_stream_refuted.
Print Assumptions C67_newlines_refuted.
Print Assumptions C67_text_template.
Print Assumptions C67_binary_template.
Print Assumptions C67_templates_plain.
Print Assumptions C67_extension_refuted.
Print Assumptions C67_json_file.
Print Assumptions C67_failed_save_refuted.
Print Assumptions C67_json_text.
Print Assumptions C67_json_stream_refuted.
Print Assumptions C67_json_bytes.
Print Assumptions C67_script_refuted.
Print Assumptions C67_run_script.
Print Assumptions C67_script_file.
Print Assumptions C67_stream_template.
Print Assumptions C67_classes.
Print Assumptions C67_stream_failures.
Print Assumptions C67_gap.
Print Assumptions C67_no_script.

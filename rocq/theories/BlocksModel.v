(** Model of what the collection blocks of a workflow compute.

    Source: /repo/dessia_common/workflow/blocks.py and
    /repo/dessia_common/utils/helpers.py:22-38.

    Simplifications.
    - The values that circulate are integers, strings, lists, tuples, datasets
      and opaque objects of a class; floats, sets, dictionaries and user classes
      with their own [extend] or arithmetic are left out.
    - A variable is an identity (a number): [Variable._eq_is_data_eq] is False
      (workflow/core.py:49), so variables are compared and hashed by identity.
    - [values] is the dictionary variable -> value a block is evaluated with, an
      association list in insertion order.
    - The run of a sub-workflow is a function of its arguments ([run] below); that
      a run is such a function is what the Exec and RunArgs files are about. *)
From Coq Require Import ZArith List String Ascii.
From Verif Require Import Base.
Import ListNotations.
Open Scope string_scope.
Open Scope list_scope.
Open Scope nat_scope.

Inductive val :=
| VInt (z : Z)
| VStr (s : string)
| VList (l : list val)
| VTuple (l : list val)
| VData (l : list val)             (* a Dataset and its dessia_objects *)
| VObj (c : nat) (id : nat).       (* an instance of class [c] *)

Inductive ty := TInt | TStr | TList | TTuple | TData | TObj (c : nat).

(** [type(value)] *)
Definition type_of (v : val) : ty :=
  match v with
  | VInt _ => TInt | VStr _ => TStr | VList _ => TList | VTuple _ => TTuple
  | VData _ => TData | VObj c _ => TObj c
  end.

Definition ty_eqb (a b : ty) : bool :=
  match a, b with
  | TInt, TInt | TStr, TStr | TList, TList | TTuple, TTuple | TData, TData => true
  | TObj c, TObj d => Nat.eqb c d
  | _, _ => false
  end.

Fixpoint chars (s : string) : list val :=
  match s with
  | EmptyString => []
  | String c s' => VStr (String c EmptyString) :: chars s'
  end.

(** [value[i]].  [Dataset.__getitem__] (datatools/dataset.py:99-108) answers an
    empty list for every index when the dataset is empty. *)
Definition py_item (v : val) (i : Z) : res val :=
  match v with
  | VData [] => Ok (VList [])
  | VList l | VTuple l | VData l => py_get l i
  | VStr s => py_get (chars s) i
  | VInt _ | VObj _ _ => Err TypeError
  end.

(** Iteration over an object that has [__getitem__] but no [__iter__], as Dataset:
    items 0, 1, 2, ... are asked for until IndexError. *)
Fixpoint iter_items (fuel : nat) (v : val) (i : Z) : res (list val) :=
  match fuel with
  | O => Err OutOfFuel
  | S fuel' =>
      match py_item v i with
      | Ok x => let* l := iter_items fuel' v (i + 1)%Z in Ok (x :: l)
      | Err IndexError => Ok []
      | Err e => Err e
      end
  end.

(** [iter(value)] run to its end; [fuel] bounds the number of items asked for *)
Definition py_iter (fuel : nat) (v : val) : res (list val) :=
  match v with
  | VList l | VTuple l => Ok l
  | VStr s => Ok (chars s)
  | VData _ => iter_items fuel v 0
  | VInt _ | VObj _ _ => Err TypeError
  end.

Definition dict_get (values : list (nat * val)) (x : nat) : res val :=
  match find (fun kv => Nat.eqb (fst kv) x) values with
  | Some kv => Ok (snd kv)
  | None => Err KeyError
  end.

(** [d[x] = v]: replaces in place, adds at the end *)
Fixpoint dict_set (values : list (nat * val)) (x : nat) (v : val) : list (nat * val) :=
  match values with
  | [] => [(x, v)]
  | (y, w) :: values' =>
      if Nat.eqb y x then (y, v) :: values' else (y, w) :: dict_set values' x v
  end.

(** [Sequence.evaluate], blocks.py:321-323 *)
Definition sequence_evaluate (inputs : list nat) (values : list (nat * val))
  : res (list val) :=
  let* l := mapM (dict_get values) inputs in Ok [VList l].

(** [concatenated_values.extend(value)], for the two classes that have it.
    [Dataset.extend] (dataset.py:142-158) is the sum of the Dataset files; both
    operands have the same class here. *)
Definition extend (acc v : val) : res val :=
  match acc, v with
  | VList l, VList m => Ok (VList (l ++ m))
  | VData l, VData m => Ok (VData (l ++ m))
  | _, _ => Err TypeError
  end.

(** [concatenate], utils/helpers.py:22-38 *)
Definition concatenate (values : list val) : res val :=
  let types_set := dedup ty_eqb [] (map type_of values) in
  if negb (Nat.eqb (List.length types_set) 1) then Err TypeError
  else
    match values with
    | [] => Err IndexError
    | first_value :: _ =>
        match first_value with
        | VList _ => foldM extend values (VList [])
        | VData _ => foldM extend values (VData [])
        | _ => Err ValueError
        end
    end.

(** [Concatenate.evaluate], blocks.py:361-364 *)
Definition concatenate_evaluate (values : list (nat * val)) : res (list val) :=
  let* v := concatenate (map snd values) in Ok [v].

(** [Unpacker.evaluate], blocks.py:558-560 *)
Definition unpacker_evaluate (indices : list Z) (inputs : list nat) (values : list (nat * val))
  : res (list val) :=
  mapM (fun i => let* x := of_option IndexError (nth_error inputs 0) in
                 let* s := dict_get values x in py_item s i) indices.

(** [Flatten.evaluate], blocks.py:592-597 *)
Definition flatten_evaluate (fuel : nat) (inputs : list nat) (values : list (nat * val)) : res (list val) :=
  let* x := of_option IndexError (nth_error inputs 0) in
  let* s := dict_get values x in
  let* l := py_iter fuel s in
  let* output := foldM (fun acc v => let* m := py_iter fuel v in Ok (acc ++ m)) l [] in
  Ok [VList output].

(** [itertools.product]: the rightmost factor moves fastest *)
Fixpoint product (lists : list (list val)) : list (list val) :=
  match lists with
  | [] => [[]]
  | l :: lists' => flat_map (fun x => map (cons x) (product lists')) l
  end.

(** [Product.evaluate], blocks.py:629-633 *)
Definition product_evaluate (fuel : nat) (inputs : list nat) (values : list (nat * val))
  : res (list val) :=
  let* list_product := mapM (dict_get values) inputs in
  let* lists := mapM (py_iter fuel) list_product in
  Ok [VList (map VTuple (product lists))].

Section SubWorkflow.
(** [self.workflow.run(arguments).output_value], [arguments] by input index *)
Variable run : list (nat * val) -> res val.

(** [WorkflowBlock.evaluate], blocks.py:416-420.  The dictionary [arguments] has
    the order of [values]. *)
Definition workflow_block_evaluate (inputs : list nat) (values : list (nat * val))
  : res (list val) :=
  let* arguments := mapM (fun kv => let* i := of_option ValueError
                                                (index_of Nat.eqb (fst kv) inputs) in
                                    Ok (i, snd kv)) values in
  let* output_value := run arguments in
  Ok [output_value].

(** The loop of [ForEach.evaluate] *)
Fixpoint foreach_loop (wb_inputs : list nat) (iter_input : nat) (elements : list val)
    (values_workflow : list (nat * val)) : res (list val) :=
  match elements with
  | [] => Ok []
  | value :: elements' =>
      let values_workflow' := dict_set values_workflow iter_input value in
      let* outputs := workflow_block_evaluate wb_inputs values_workflow' in
      let* output := of_option IndexError (nth_error outputs 0) in
      let* output_values := foreach_loop wb_inputs iter_input elements' values_workflow' in
      Ok (output :: output_values)
  end.

(** [ForEach.evaluate], blocks.py:499-507, with [iter_input] as [__init__] sets it
    (line 463: python indexing, so that a negative index counts from the end) *)
Definition foreach_evaluate (fuel : nat) (wb_inputs : list nat) (iter_input_index : Z) (inputs : list nat)
    (values : list (nat * val)) : res (list val) :=
  let* iter_input := py_get wb_inputs iter_input_index in
  let* values_workflow :=
    foldM (fun d xy => let* v := dict_get values (fst xy) in Ok (dict_set d (snd xy) v))
          (combine inputs wb_inputs) [] in
  let* s := dict_get values_workflow iter_input in
  let* elements := py_iter fuel s in
  let* output_values := foreach_loop wb_inputs iter_input elements values_workflow in
  Ok [VList output_values].
End SubWorkflow.

(** [a + b], integers only; a Variable is an opaque object without [__radd__] *)
Definition py_add (a b : val) : res val :=
  match a, b with VInt x, VInt y => Ok (VInt (x + y)) | _, _ => Err TypeError end.

Definition py_sub (a b : val) : res val :=
  match a, b with VInt x, VInt y => Ok (VInt (x - y)) | _, _ => Err TypeError end.

(** The class of variables, for [Sum] which adds variables up *)
Definition variable_class : nat := 0.

(** [Sum.evaluate], blocks.py:1324-1330: [sum(values)] iterates over the keys *)
Definition sum_evaluate (values : list (nat * val)) : res (list val) :=
  let* s := foldM py_add (map (fun kv => VObj variable_class (fst kv)) values) (VInt 0) in
  Ok [s].

(** [Substraction.evaluate], blocks.py:1345-1347 *)
Definition substraction_evaluate (inputs : list nat) (values : list (nat * val))
  : res (list val) :=
  let* x := of_option IndexError (nth_error inputs 0) in
  let* a := dict_get values x in
  let* y := of_option IndexError (nth_error inputs 1) in
  let* b := dict_get values y in
  let* d := py_sub a b in
  Ok [d].

(** [separator.join(chunks)] *)
Fixpoint str_join (separator : string) (chunks : list val) : res string :=
  match chunks with
  | [] => Ok ""
  | VStr s :: chunks' =>
      match chunks' with
      | [] => Ok s
      | _ => let* t := str_join separator chunks' in Ok (s ++ separator ++ t)%string
      end
  | _ :: _ => Err TypeError
  end.

(** [ConcatenateStrings.evaluate], blocks.py:1398-1401 *)
Definition concatenate_strings_evaluate (separator : string) (inputs : list nat)
    (values : list (nat * val)) : res (list val) :=
  let* chunks := mapM (dict_get values) inputs in
  let* s := str_join separator chunks in
  Ok [VStr s].

(** ** Blocks that call user code with named arguments *)

(** [{name: value, ...}] built in order: a repeated name keeps the last value *)
Fixpoint named_set (d : list (string * val)) (x : string) (v : val) : list (string * val) :=
  match d with
  | [] => [(x, v)]
  | (y, w) :: d' => if String.eqb y x then (y, v) :: d' else (y, w) :: named_set d' x v
  end.

(** An input is its identity and its name. *)
Definition instantiate_arguments (inputs : list (nat * string)) (values : list (nat * val))
  : res (list (string * val)) :=
  foldM (fun d i => let* v := dict_get values (fst i) in Ok (named_set d (snd i) v)) inputs [].

Definition method_arguments (inputs : list (nat * string)) (values : list (nat * val))
  : list (string * val) :=
  fold_left (fun d i => match dict_get values (fst i) with
                        | Ok v => named_set d (snd i) v
                        | Err _ => d
                        end) inputs [].

Section UserCode.
(** The user's class, class method, or method of an object: the arguments it is
    called with and whether the progress callback is among them give the result. *)
Variable call : list (string * val) -> res val.
Variable method : val -> bool -> list (string * val) -> res val.

(** [InstantiateModel.evaluate], blocks.py:113-116 *)
Definition instantiate_evaluate (inputs : list (nat * string)) (values : list (nat * val))
  : res (list val) :=
  let* arguments := instantiate_arguments inputs values in
  let* o := call arguments in Ok [o].

(** [ClassMethod.evaluate], blocks.py:183-186 *)
Definition class_method_evaluate (inputs : list (nat * string)) (values : list (nat * val))
  : res (list val) :=
  let* r := call (method_arguments inputs values) in Ok [r].

(** [ModelMethod.evaluate], blocks.py:255-264.  Beside the result, the list of the
    calls of the method, in order: with the progress callback or not. *)
Definition model_method_evaluate (inputs : list (nat * string)) (values : list (nat * val))
  : res (list val) * list (bool * list (string * val)) :=
  match inputs with
  | [] => (Err IndexError, [])
  | model :: others =>
      let arguments := method_arguments others values in
      match dict_get values (fst model) with
      | Err e => (Err e, [])
      | Ok o =>
          match method o true arguments with
          | Ok r => (Ok [r; o], [(true, arguments)])
          | Err TypeError =>
              match method o false arguments with
              | Ok r => (Ok [r; o], [(true, arguments); (false, arguments)])
              | Err e => (Err e, [(true, arguments); (false, arguments)])
              end
          | Err e => (Err e, [(true, arguments)])
          end
      end
  end.
End UserCode.

(** Model of /repo/dessia_common/breakdown.py.

    The dictionaries of objects of a breakdown live in a store, so that the effects of
    merging on its arguments are visible. *)
From Coq Require Import Ascii String List Bool Arith.
From Verif Require Import Base TableModel.
Import ListNotations.
Open Scope list_scope.
Open Scope string_scope.
Open Scope nat_scope.

(** [path.split('.')] *)
Fixpoint split_dots (s : string) : list string :=
  match s with
  | EmptyString => [""]
  | String c s' => if Ascii.eqb c "." then "" :: split_dots s'
                   else match split_dots s' with
                        | [] => [String c ""]
                        | w :: ws => String c w :: ws
                        end
  end.

Definition depth (path : string) : nat := List.length (split_dots path).

(** Values.  [Plain]: None, strings, numbers, arrays and what has no [__dict__]; [Seq]: lists
    and tuples; [Set_]: sets, in their iteration order; [Dict]: dictionaries, with the text of
    their keys; [Obj]: objects, with the name of their class, their identity and the
    dictionary that is broken down ([_serializable_dict()] or [__dict__]). *)
Inductive value :=
| Plain
| Seq (l : list value)
| Set_ (l : list value)
| Dict (d : list (string * value))
| Obj (class : string) (id : nat) (attributes : list (string * value)).

Section Breakdown.
(** [==] of two objects, by identity (and equal hashes) *)
Variable same : nat -> nat -> bool.

(** dictionary from objects to paths: python keeps the first of equal keys *)
Definition refs := list (nat * string).
Definition get_ref (d : refs) (o : nat) : option string :=
  option_map snd (find (fun e => same (fst e) o) d).
Fixpoint set_ref (d : refs) (o : nat) (path : string) : refs :=
  match d with
  | [] => [(o, path)]
  | (o', path') :: d' => if same o' o then (o', path) :: d' else (o', path') :: set_ref d' o path
  end.

(** breakdown: class name to the location of its dictionary *)
Definition breakdown_dict := list (string * nat).
Definition store := list refs.
Definition get_class {A} (d : list (string * A)) (c : string) : option A :=
  option_map snd (find (fun e => String.eqb (fst e) c) d).
Definition read (h : store) (l : nat) : refs := nth l h [].
Fixpoint write (h : store) (l : nat) (r : refs) : store :=
  match h, l with
  | [], _ => []
  | _ :: h', 0 => r :: h'
  | x :: h', S l' => x :: write h' l' r
  end.

(** the loop over the objects of a class, breakdown.py:40-45 *)
Definition merge_refs (d entries : refs) : refs :=
  fold_left (fun d e =>
    match get_ref d (fst e) with
    | Some path => if depth (snd e) <? depth path then set_ref d (fst e) (snd e) else d
    | None => set_ref d (fst e) (snd e)
    end) entries d.

(** [merge_breakdown_dicts], breakdown.py:34-48: [dict1.copy()] copies the outer dictionary
    only *)
Definition merge_class (hd : store * breakdown_dict) (class_refs : string * nat) : store * breakdown_dict :=
  let (h, dict3) := hd in
  match get_class dict3 (fst class_refs) with
  | Some l => (write h l (merge_refs (read h l) (read h (snd class_refs))), dict3)
  | None => (h, dict3 ++ [class_refs])%list
  end.
Definition merge_breakdown_dicts (h : store) (dict1 dict2 : breakdown_dict) : store * breakdown_dict :=
  fold_left merge_class dict2 (h, dict1).

(** [if path: path += '.'] and then [path + key] *)
Definition extend (path key : string) : string :=
  (if String.eqb path "" then "" else path ++ ".") ++ key.


Definition is_seq (v : value) : bool := match v with Seq _ => true | _ => false end.
Definition is_dict (v : value) : bool := match v with Dict _ => true | _ => false end.

Definition enumerate {A} (l : list A) : list (nat * A) := combine (seq 0 (List.length l)) l.

(** [breakdown], breakdown.py:51-88 and [object_breakdown], breakdown.py:91-122.
    Recursion is on fuel: the objects are a tree, sharing is by identity. *)
Fixpoint breakdown (fuel : nat) (h : store) (v : value) (path : string) : res (store * breakdown_dict) :=
  match fuel with
  | 0 => Err OutOfFuel
  | S fuel =>
    let loop := fix loop (l : list (string * value)) (h : store) (bd_dict : breakdown_dict) :=
        match l with
        | [] => Ok (h, bd_dict)
        | (k, x) :: l =>
          let* (h', dict2) := breakdown fuel h x (extend path k) in
          let (h'', bd_dict') := merge_breakdown_dicts h' bd_dict dict2 in
          loop l h'' bd_dict'
        end in
    match v with
    | Plain => Ok (h, [])
    | Seq l | Set_ l => loop (map (fun ix => (nat_str (fst ix), snd ix)) (enumerate l)) h []
    | Dict d => loop d h []
    | Obj class id attributes =>
      let (h, bd_dict) := if String.eqb path "" then (h, [])
                          else ((h ++ [[(id, path)]])%list, [(class, List.length h)]) in
      let* (h, dict2) := loop (filter (fun kx => negb (is_seq (snd kx)) && negb (is_dict (snd kx))) attributes) h [] in
      let* (h, dict2) := loop (filter (fun kx => is_seq (snd kx)) attributes) h dict2 in
      let* (h, dict2) := loop (filter (fun kx => is_dict (snd kx)) attributes) h dict2 in
      Ok (merge_breakdown_dicts h bd_dict dict2)
    end
  end.
End Breakdown.

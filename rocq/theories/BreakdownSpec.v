(** Vocabulary of C40: what is found where. *)
From Coq Require Import Ascii String List Bool Arith.
From Verif Require Import Base TableModel BreakdownModel.
Import ListNotations.
Open Scope list_scope.
Open Scope nat_scope.

(** [found v r c i]: following the keys [r] from [v], one gets to the object [i] of class [c] *)
Inductive found : value -> list string -> string -> nat -> Prop :=
| found_here c i a : found (Obj c i a) [] c i
| found_seq l n x r c i : nth_error l n = Some x -> found x r c i -> found (Seq l) (nat_str n :: r) c i
| found_set l n x r c i : nth_error l n = Some x -> found x r c i -> found (Set_ l) (nat_str n :: r) c i
| found_dict d k x r c i : In (k, x) d -> found x r c i -> found (Dict d) (k :: r) c i
| found_attribute c' i' a k x r c i : In (k, x) a -> found x r c i -> found (Obj c' i' a) (k :: r) c i.

(** an object seen: class, identity and path *)
Definition visit := (string * nat * string)%type.

(** The objects in the order in which a breakdown sees them: an object, then what is in its
    attributes, those that are neither lists nor dictionaries first, then the lists, then
    the dictionaries. *)
Definition longer (path key : string) : string :=
  match path with EmptyString => key | _ => (path ++ "." ++ key)%string end.
Fixpoint visits (path : string) (v : value) : list visit :=
  match v with
  | Plain => []
  | Seq l | Set_ l =>
      (fix items (n : nat) (l : list value) : list visit :=
         match l with
         | [] => []
         | x :: l' => visits (longer path (nat_str n)) x ++ items (S n) l'
         end) 0 l
  | Dict d => flat_map (fun kx => visits (longer path (fst kx)) (snd kx)) d
  | Obj c i a =>
      match path with EmptyString => [] | _ => [(c, i, path)] end
      ++ flat_map (fun kx => match snd kx with
                             | Seq _ | Dict _ => []
                             | _ => visits (longer path (fst kx)) (snd kx)
                             end) a
      ++ flat_map (fun kx => match snd kx with
                             | Seq _ => visits (longer path (fst kx)) (snd kx)
                             | _ => []
                             end) a
      ++ flat_map (fun kx => match snd kx with
                             | Dict _ => visits (longer path (fst kx)) (snd kx)
                             | _ => []
                             end) a
  end.

(** the number of nested values *)
Fixpoint height (v : value) : nat :=
  match v with
  | Plain => 1
  | Seq l | Set_ l => S (fold_right (fun x n => max (height x) n) 0 l)
  | Dict d | Obj _ _ d => S (fold_right (fun kx n => max (height (snd kx)) n) 0 d)
  end.

(** a path is keys with dots between them, from the first key that is not empty *)
Fixpoint path_text (r : list string) : string :=
  match r with
  | EmptyString :: r' => path_text r'
  | _ => String.concat "." r
  end.

Fixpoint dots (s : string) : nat :=
  match s with
  | EmptyString => 0
  | String c s => (if Ascii.eqb c "." then 1 else 0) + dots s
  end.

Section Observed.
Variable same : nat -> nat -> bool.

(** the path a breakdown gives for an object *)
Definition path_of (h : store) (d : breakdown_dict) (c : string) (o : nat) : option string :=
  match get_class d c with None => None | Some l => get_ref same (read h l) o end.

(** a store and a breakdown python can hold: each class once, to its own dictionary, in
    which each object is once *)
Definition valid (h : store) (d : breakdown_dict) : Prop :=
  NoDup (map fst d) /\ NoDup (map snd d)
  /\ forall c l, In (c, l) d -> l < length h
     /\ forall i j o o' p p', nth_error (read h l) i = Some (o, p) -> nth_error (read h l) j = Some (o', p') ->
        same o o' = true -> i = j.
End Observed.

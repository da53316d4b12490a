(** C13: deserializing the arguments of methods. *)
From Coq Require Import ZArith QArith String Ascii List Bool Arith Lia.
From Verif Require Import Base PyValue TypingModel TypingProofs ArgumentProofs.
Import ListNotations.
Open Scope string_scope.
Open Scope list_scope.
Open Scope nat_scope.

Section Props.
(** any classes *)
Variable kind : string -> class_kind.
Variable dict_to_object : string -> val -> res val.
Variable mro : string -> nat.
Notation deserialize := (deserialize_argument kind dict_to_object mro).

(** What is returned for a JSON argument is of the declared type: built-in types, lists,
    tuples and optionals of them, at any depth.  Tuples may be too short. *)
Theorem C13_typed : forall t v r, simple t -> json v -> deserialize t v = Ok r -> conforms r t.
Proof. intros t v r S J H. eapply typed; eauto. Qed.

(** Arguments of the declared type are accepted and their data kept: integers become floats
    where floats are expected, lists become tuples. *)
Theorem C13_accepts : forall t v, fits v t -> exists r, deserialize t v = Ok r /\ same_data v r.
Proof. intros. apply accepts. auto. Qed.

(** None is accepted for every type. *)
Theorem C13_none : forall t, deserialize t VNone = Ok VNone.
Proof. apply deserialize_none. Qed.

(** Built-in types: instances are returned as they are, integers and booleans are turned to
    floats, the rest is refused. *)
Theorem C13_builtin : forall c v, In c builtins -> json v -> v <> VNone ->
  deserialize (TClass c) v =
  match v with
  | VBool b => if String.eqb c "bool" || String.eqb c "int" then Ok v
               else if String.eqb c "float" then Ok (VFloat (Fin (if b then 1%Q else 0%Q))) else Err TypeError
  | VInt z => if String.eqb c "int" then Ok v
              else if String.eqb c "float" then Ok (VFloat (Fin (inject_Z z))) else Err TypeError
  | VFloat _ => if String.eqb c "float" then Ok v else Err TypeError
  | VStr _ => if String.eqb c "str" then Ok v else Err TypeError
  | _ => Err TypeError
  end.
Proof. intros c v I J N. destruct I as [<-|[<-|[<-|[<-|[]]]]]; destruct J; try congruence; reflexivity. Qed.

(** A list is accepted exactly when each of its items is; the first refused is reported. *)
Theorem C13_list : forall a l,
  (exists r, deserialize (TList a) (VList l) = Ok (VList r) /\ Forall2 (fun x y => deserialize a x = Ok y) l r)
  \/ exists before x e after before', l = before ++ x :: after
     /\ Forall2 (fun x y => deserialize a x = Ok y) before before'
     /\ deserialize a x = Err e /\ deserialize (TList a) (VList l) = Err e.
Proof.
  intros a l. cbn [deserialize_argument iterate bind].
  assert (G : (exists r, mapM (deserialize a) l = Ok r /\ Forall2 (fun x y => deserialize a x = Ok y) l r)
    \/ exists before x e after before', l = before ++ x :: after
       /\ Forall2 (fun x y => deserialize a x = Ok y) before before' /\ deserialize a x = Err e /\ mapM (deserialize a) l = Err e).
  { induction l as [|x l IH]; simpl; [left; exists []; auto|]. destruct (deserialize a x) as [y|e] eqn:E; simpl.
    - destruct IH as [(r & -> & F)|(b & z & e & af & b' & -> & F & Ez & ->)]; simpl.
      + left. exists (y :: r). auto.
      + right. exists (x :: b), z, e, af, (y :: b'). auto.
    - right. exists [], x, e, l, []. auto. }
  destruct G as [(r & -> & F)|(b & z & e & af & b' & -> & F & Ez & ->)]; simpl.
  - left. exists r. auto.
  - right. exists b, z, e, af, b'. auto.
Qed.

(** An optional type is the type. *)
Theorem C13_optional : forall a v, json v -> deserialize (TUnion [a; NoneType]) v = deserialize a v.
Proof. intros a v J. rewrite deserialize_optional. destruct J; auto. symmetry. apply deserialize_none. Qed.

(** A union of classes gives what the class with the longest hierarchy gives, among those
    that do not raise KeyError; when all of them do, ValueError is raised. *)
Theorem C13_union : forall cs v, json v -> v <> VNone -> union_is_default_value (map TClass cs) = false ->
  (forall c, In c cs -> kind c = Serializable /\ ~ In c builtins) ->
  ((forall c, In c cs -> dict_to_object c v = Err KeyError)
   /\ deserialize (TUnion (map TClass cs)) v = Err ValueError)
  \/ exists pre c post, cs = pre ++ c :: post
     /\ deserialize (TUnion (map TClass cs)) v = dict_to_object c v /\ dict_to_object c v <> Err KeyError
     /\ (forall d, In d pre -> mro c <= mro d -> dict_to_object d v = Err KeyError)
     /\ (forall d, In d post -> mro c < mro d -> dict_to_object d v = Err KeyError).
Proof.
  intros cs v J N D H.
  assert (E : deserialize (TUnion (map TClass cs)) v
              = union_loop kind dict_to_object mro (S (List.length (map TClass cs))) (map TClass cs) v)
    by (destruct J; try congruence; cbn [deserialize_argument]; rewrite D; auto).
  rewrite E, map_length. apply union_loop_spec; auto.
  intros c Hc. destruct (H c Hc) as [K B]. split; auto. unfold builtin, builtins in *. simpl in B.
  destruct (String.eqb_spec c "int"); [exfalso; apply B; subst; auto|]. destruct (String.eqb_spec c "float"); [exfalso; apply B; subst; auto|].
  destruct (String.eqb_spec c "bool"); [exfalso; apply B; subst; auto|]. destruct (String.eqb_spec c "str"); [exfalso; apply B; subst; auto|]. auto.
Qed.

(** ** Where the declared type is not enforced *)

(** Items beyond those declared are dropped, missing items are not noticed. *)
Theorem C13_tuple_length_refuted : forall args l more, List.length l = List.length args ->
  deserialize (TTuple args) (VList (l ++ more)) = deserialize (TTuple args) (VList l)
  /\ forall r, deserialize (TTuple args) (VList l) = Ok (VTuple r) ->
     forall n, deserialize (TTuple args) (VList (firstn n l)) = Ok (VTuple (firstn n r)).
Proof.
  intros args l more L. cbn [deserialize_argument iterate bind]. split.
  - assert (zip_with deserialize args (l ++ more) = zip_with deserialize args l) as ->; auto.
    revert l L. induction args as [|a args IH]; intros [|x l] L; simpl in *; try lia; auto.
    destruct (deserialize a x); simpl; auto. rewrite IH by lia. auto.
  - intros r H n. destruct (zip_with deserialize args l) as [rs|] eqn:Z; simpl in H; [|discriminate]. injection H as <-.
    assert (zip_with deserialize args (firstn n l) = Ok (firstn n rs)) as ->; auto.
    revert l L rs Z n. induction args as [|a args IH]; intros [|x l] L rs Z n; simpl in *; try lia.
    + injection Z as <-. rewrite !firstn_nil. auto.
    + destruct n as [|n]; auto. simpl. destruct (deserialize a x) as [y|]; simpl in *; [|discriminate].
      destruct (zip_with deserialize args l) as [ys|] eqn:Z'; simpl in Z; [|discriminate]. injection Z as <-.
      rewrite (IH l ltac:(lia) ys Z' n). auto.
Qed.

(** A tuple of any number of items is refused as soon as it has two. *)
Theorem C13_sequence_refuted : forall a x y l, json y -> y <> VNone ->
  forall r, deserialize (TTuple [a; TEllipsis]) (VList (x :: y :: l)) <> Ok r.
Proof.
  intros a x y l J N r. cbn [deserialize_argument iterate bind zip_with].
  destruct (deserialize a x); cbn [bind]; [|congruence]. destruct J; simpl; congruence.
Qed.

(** A string given for a list is taken as the list of its characters, a dictionary as the
    list of its keys. *)
Theorem C13_string_refuted : forall s, deserialize (TList (TClass "str")) (VStr s) = Ok (VList (characters s)).
Proof.
  intros s. change (deserialize (TList (TClass "str")) (VStr s))
    with (let* r := mapM (deserialize (TClass "str")) (characters s) in Ok (VList r)).
  assert (mapM (deserialize (TClass "str")) (characters s) = Ok (characters s)) as ->; auto.
  induction s as [|a s IH]; auto. cbn [characters mapM]. rewrite IH. auto.
Qed.
Theorem C13_keys_refuted : forall d, (forall kv, In kv d -> exists s, fst kv = KStr s) ->
  exists keys, deserialize (TList (TClass "str")) (VDict d) = Ok (VList keys) /\ List.length keys = List.length d.
Proof.
  intros d H. change (deserialize (TList (TClass "str")) (VDict d))
    with (let* r := mapM (deserialize (TClass "str"))
                      (map (fun kv => match fst kv with KStr s => VStr s | KInt z => VInt z | KOther _ => VNone end) d)
          in Ok (VList r)).
  exists (map (fun kv => match fst kv with KStr s => VStr s | KInt z => VInt z | KOther _ => VNone end) d).
  rewrite map_length. split; auto.
  assert (E : mapM (deserialize (TClass "str")) (map (fun kv : key * val => match fst kv with KStr s => VStr s | KInt z => VInt z | KOther _ => VNone end) d)
         = Ok (map (fun kv : key * val => match fst kv with KStr s => VStr s | KInt z => VInt z | KOther _ => VNone end) d)); [|rewrite E; auto].
  induction d as [|[k x] d IH]; auto. destruct (H (k, x)) as [s E]; [simpl; auto|]. simpl in E. subst.
  cbn [map mapM fst]. rewrite IH by (intros; apply H; simpl; auto). auto.
Qed.

(** Dictionaries, literals and measures are not checked at all: any argument is returned as
    it is, and objects are returned as they are for any type. *)
Theorem C13_unchecked_refuted : forall v,
  (forall k a, deserialize (TDict k a) v = Ok v)
  /\ (forall args, deserialize (TGeneric "Literal" args) v = Ok v)
  /\ (forall c, kind c = Measure -> ~ In c builtins -> deserialize (TClass c) v = Ok v)
  /\ (forall c attrs t, v = VObj c attrs -> deserialize t v = Ok v).
Proof.
  intros v. split; [intros; destruct v; auto|]. split; [intros; destruct v; auto|]. split.
  - intros c K B. unfold builtins in B. simpl in B.
    assert (builtin c = false).
    { unfold builtin. destruct (String.eqb_spec c "int"); [exfalso; apply B; subst; auto|]. destruct (String.eqb_spec c "float"); [exfalso; apply B; subst; auto|].
      destruct (String.eqb_spec c "bool"); [exfalso; apply B; subst; auto|]. destruct (String.eqb_spec c "str"); [exfalso; apply B; subst; auto|]. auto. }
    destruct v; cbn [deserialize_argument]; rewrite ?H, ?K; auto.
  - intros c attrs t ->. destruct t; auto.
Qed.

(** Written with None first, an optional type refuses everything else. *)
Theorem C13_none_first_refuted : forall a v, kind "NoneType" = Other -> json v -> v <> VNone ->
  deserialize (TUnion [NoneType; a]) v = Err TypeError.
Proof.
  intros a v K J N. assert (D : union_is_default_value [NoneType; a] = true) by reflexivity.
  destruct J; try congruence; cbn [deserialize_argument]; rewrite D; unfold NoneType; cbn [deserialize_argument builtin];
    rewrite K; auto.
Qed.

(** Unions of built-in types refuse everything. *)
Theorem C13_union_builtin_refuted : forall cs v, (forall c, In c cs -> In c builtins) -> cs <> [] ->
  json v -> v <> VNone -> deserialize (TUnion (map TClass cs)) v = Err AttributeError.
Proof.
  intros cs v B NE J N.
  assert (D : union_is_default_value (map TClass cs) = false).
  { unfold union_is_default_value. assert (existsb (fun a => teq a NoneType) (map TClass cs) = false) as ->; [|apply andb_false_r].
    clear NE. induction cs as [|c cs IH]; auto. cbn [map existsb]. rewrite IH by (intros; apply B; simpl; auto).
    assert (I : In c builtins) by (apply B; simpl; auto). destruct I as [<-|[<-|[<-|[<-|[]]]]]; auto. }
  assert (E : deserialize (TUnion (map TClass cs)) v
              = union_loop kind dict_to_object mro (S (List.length (map TClass cs))) (map TClass cs) v)
    by (destruct J; try congruence; cbn [deserialize_argument]; rewrite D; auto).
  rewrite E. cbn [union_loop].
  assert (M : mapM (mro_length mro) (map TClass cs) = Ok (map mro cs)).
  { clear. induction cs as [|c cs IH]; simpl; auto. rewrite IH. auto. }
  rewrite M. cbn [bind]. destruct (argmax (map mro cs)) as [i|] eqn:A.
  - apply argmax_spec in A. destruct A as [Hi _]. rewrite map_length in Hi.
    destruct (nth_error cs i) as [c|] eqn:X; [|apply nth_error_None in X; lia].
    assert (Nx : nth i (map TClass cs) TAny = TClass c).
    { apply nth_error_nth. rewrite nth_error_map, X. auto. }
    rewrite Nx. assert (I : In c builtins) by (apply B; eapply nth_error_In; eauto).
    assert (builtin c = true) by (destruct I as [<-|[<-|[<-|[<-|[]]]]]; auto).
    cbn [class_dict_to_object]. rewrite H. destruct (kind c); auto.
  - apply argmax_none in A. destruct cs; [congruence|discriminate].
Qed.
End Props.

Print Assumptions C13_typed.
Print Assumptions C13_accepts.
Print Assumptions C13_none.
Print Assumptions C13_builtin.
Print Assumptions C13_list.
Print Assumptions C13_optional.
Print Assumptions C13_union.
Print Assumptions C13_tuple_length_refuted.
Print Assumptions C13_sequence_refuted.
Print Assumptions C13_string_refuted.
Print Assumptions C13_keys_refuted.
Print Assumptions C13_unchecked_refuted.
Print Assumptions C13_none_first_refuted.
Print Assumptions C13_union_builtin_refuted.

(** ** Examples *)

Definition no_class (c : string) : class_kind := Other.
Definition no_object (c : string) (v : val) : res val := Err TypeError.

(** List[Tuple[float, str]] *)
Example C13_example :
  let t := TList (TTuple [TClass "float"; TUnion [TClass "str"; NoneType]]) in
  deserialize_argument no_class no_object String.length t
    (VList [VList [VInt 3; VStr "a"]; VList [VInt 4; VNone]])
  = Ok (VList [VTuple [VFloat (Fin 3); VStr "a"]; VTuple [VFloat (Fin 4); VNone]])
  /\ deserialize_argument no_class no_object String.length t (VList [VList [VStr "a"; VStr "b"]]) = Err TypeError
  /\ simple t.
Proof. split; [reflexivity|]. split; [reflexivity|]. repeat (constructor; simpl; auto). Qed.

(** two classes, the second having the longer hierarchy: a document that has not its key
    goes to the first *)
Example C13_union_example :
  let kinds c := if String.eqb c "Parent" || String.eqb c "Child" then Serializable else Other in
  let d2o c v := match v with
                 | VDict d => if String.eqb c "Child" && negb (has_key (KStr "extra") d) then Err KeyError else Ok (VObj c d)
                 | _ => Err TypeError
                 end in
  let mro c := if String.eqb c "Child" then 4 else 3 in
  deserialize_argument kinds d2o mro (TUnion [TClass "Parent"; TClass "Child"]) (VDict [(KStr "name", VStr "x")])
  = Ok (VObj "Parent" [(KStr "name", VStr "x")])
  /\ deserialize_argument kinds d2o mro (TUnion [TClass "Parent"; TClass "Child"]) (VDict [(KStr "extra", VInt 1)])
  = Ok (VObj "Child" [(KStr "extra", VInt 1)]).
Proof. split; reflexivity. Qed.

(** Lemmas on the deserialization of arguments. *)
From Coq Require Import ZArith QArith String Ascii List Bool Arith Lia.
From Verif Require Import Base PyValue TypingModel TypingProofs.
Import ListNotations.
Open Scope string_scope.
Open Scope list_scope.
Open Scope nat_scope.

(** ** JSON documents, the types considered, the values they have *)

Inductive json : val -> Prop :=
| json_none : json VNone
| json_bool b : json (VBool b)
| json_int z : json (VInt z)
| json_float f : json (VFloat f)
| json_str s : json (VStr s)
| json_list l : Forall json l -> json (VList l)
| json_dict d : Forall (fun kv => json (snd kv) /\ exists s, fst kv = KStr s) d -> json (VDict d).

Definition builtins := ["int"; "float"; "bool"; "str"].
(** built-in types, lists, tuples and optionals of them *)
Inductive simple : ty -> Prop :=
| simple_builtin c : In c builtins -> simple (TClass c)
| simple_list a : simple a -> simple (TList a)
| simple_tuple args : Forall simple args -> simple (TTuple args)
| simple_optional a : simple a -> simple (TUnion [a; NoneType]).

(** The values of these types.  A tuple may have fewer items than declared. *)
Inductive conforms : val -> ty -> Prop :=
| c_none t : conforms VNone t
| c_int z : conforms (VInt z) (TClass "int")
| c_bool_int b : conforms (VBool b) (TClass "int")
| c_bool b : conforms (VBool b) (TClass "bool")
| c_float f : conforms (VFloat f) (TClass "float")
| c_str s : conforms (VStr s) (TClass "str")
| c_list l a : Forall (fun x => conforms x a) l -> conforms (VList l) (TList a)
| c_tuple l args : List.length l <= List.length args ->
    (forall i x a, nth_error l i = Some x -> nth_error args i = Some a -> conforms x a) -> conforms (VTuple l) (TTuple args)
| c_optional v a : conforms v a -> conforms v (TUnion [a; NoneType]).

(** The arguments that fit a type: lists and tuples may be given for each other, integers for
    floats, tuples have the declared length. *)
Inductive fits : val -> ty -> Prop :=
| f_none t : fits VNone t
| f_int z : fits (VInt z) (TClass "int")
| f_bool_int b : fits (VBool b) (TClass "int")
| f_bool b : fits (VBool b) (TClass "bool")
| f_float f : fits (VFloat f) (TClass "float")
| f_int_float z : fits (VInt z) (TClass "float")
| f_str s : fits (VStr s) (TClass "str")
| f_list v l a : v = VList l \/ v = VTuple l -> Forall (fun x => fits x a) l -> fits v (TList a)
| f_tuple v l args : v = VList l \/ v = VTuple l -> List.length l = List.length args ->
    (forall i x a, nth_error l i = Some x -> nth_error args i = Some a -> fits x a) -> fits v (TTuple args)
| f_optional v a : fits v a -> fits v (TUnion [a; NoneType]).

(** The same data: equal atoms, integers being equal to floats, and sequences of the same. *)
Inductive same_data : val -> val -> Prop :=
| s_refl v : same_data v v
| s_float z : same_data (VInt z) (VFloat (Fin (inject_Z z)))
| s_seq v w l m : (v = VList l \/ v = VTuple l) -> (w = VList m \/ w = VTuple m) ->
    List.length l = List.length m ->
    (forall i x y, nth_error l i = Some x -> nth_error m i = Some y -> same_data x y) -> same_data v w.

Lemma mapM_nth {A B} (f : A -> res B) l : forall r, mapM f l = Ok r ->
  List.length r = List.length l /\ forall i x y, nth_error l i = Some x -> nth_error r i = Some y -> f x = Ok y.
Proof.
  induction l as [|a l IH]; intros r H; simpl in H.
  - injection H as <-. split; auto. intros [|i] x y Hx; discriminate.
  - destruct (f a) as [b|] eqn:E; simpl in H; [|discriminate].
    destruct (mapM f l) as [bs|]; simpl in H; [|discriminate]. injection H as <-.
    destruct (IH bs eq_refl) as [L N]. split; [simpl; lia|].
    intros [|i] x y Hx Hy; simpl in *; [congruence|eauto].
Qed.

Lemma zip_with_nth {A B} (f : A -> B -> res B) l : forall m r, zip_with f l m = Ok r ->
  List.length r = min (List.length l) (List.length m)
  /\ forall i a x y, nth_error l i = Some a -> nth_error m i = Some x -> nth_error r i = Some y -> f a x = Ok y.
Proof.
  induction l as [|a l IH]; intros m r H; simpl in H; [injection H as <-; split; auto; intros [|i]; discriminate|].
  destruct m as [|x m]; [injection H as <-; split; auto; intros [|i] ? ? ? _ H; discriminate|].
  destruct (f a x) as [b|] eqn:E; simpl in H; [|discriminate].
  destruct (zip_with f l m) as [bs|] eqn:Z; simpl in H; [|discriminate]. injection H as <-.
  destruct (IH m bs Z) as [L N]. split; [simpl; lia|].
  intros [|i] a' x' y Ha Hx Hy; simpl in *; [congruence|eauto].
Qed.

Lemma mapM_ok {A B} (f : A -> res B) l : (forall x, In x l -> exists y, f x = Ok y) -> exists r, mapM f l = Ok r.
Proof.
  induction l as [|a l IH]; simpl; intros H; [eauto|]. destruct (H a) as [b ->]; auto. simpl.
  destruct IH as [r ->]; auto. simpl. eauto.
Qed.

Lemma zip_with_ok {A B} (f : A -> B -> res B) l : forall m,
  (forall i a x, nth_error l i = Some a -> nth_error m i = Some x -> exists y, f a x = Ok y) -> exists r, zip_with f l m = Ok r.
Proof.
  induction l as [|a l IH]; intros [|x m] H; simpl; eauto. destruct (H 0 a x) as [y ->]; auto. simpl.
  destruct (IH m) as [r ->]; [intros i; apply (H (S i))|]. simpl. eauto.
Qed.

Lemma json_iterate v l : json v -> iterate v = Ok l -> Forall json l.
Proof.
  intros J H. destruct J as [|b|z|f|s|l' F|d F]; simpl in H; try discriminate; injection H as <-; auto.
  - induction s; simpl; constructor; auto. constructor.
  - induction F as [|[k x] d [_ [s E]] F IH]; simpl; constructor; auto. simpl in E. subst. constructor.
Qed.

Section Args.
Variable kind : string -> class_kind.
Variable dict_to_object : string -> val -> res val.
Variable mro : string -> nat.
Notation deserialize := (deserialize_argument kind dict_to_object mro).

Lemma deserialize_list a v : json v -> v <> VNone ->
  deserialize (TList a) v = let* l := iterate v in let* r := mapM (deserialize a) l in Ok (VList r).
Proof. intros J N. destruct J; simpl; congruence. Qed.

Lemma deserialize_tuple args v : json v -> v <> VNone ->
  deserialize (TTuple args) v = let* l := iterate v in let* r := zip_with deserialize args l in Ok (VTuple r).
Proof. intros J N. destruct J; simpl; congruence. Qed.

Lemma deserialize_optional a v : deserialize (TUnion [a; NoneType]) v = match v with VNone => Ok VNone | VObj _ _ => Ok v | _ => deserialize a v end.
Proof.
  assert (D : union_is_default_value [a; NoneType] = true).
  { unfold union_is_default_value. cbn [existsb List.length]. rewrite (teq_refl NoneType), orb_true_r. auto. }
  destruct v; cbn [deserialize_argument]; rewrite ?D; auto.
Qed.

Lemma deserialize_none t : deserialize t VNone = Ok VNone.
Proof. destruct t; auto. Qed.

Lemma typed t : simple t -> forall v r, json v -> deserialize t v = Ok r -> conforms r t.
Proof.
  induction t as [|c| |a IH|k a IHk IHa|args IH|args IH|n args IH] using ty_ind'; intros S v r J H;
    (destruct (match v with VNone => true | _ => false end) eqn:NV;
      [destruct v; try discriminate; rewrite deserialize_none in H; injection H as <-; constructor|]);
    assert (NN : v <> VNone) by (intros ->; discriminate).
  - inversion S.
  - inversion S as [c' I | | |]; subst. destruct I as [<-|[<-|[<-|[<-|[]]]]]; destruct J; simpl in H; try discriminate;
      try (injection H as <-; constructor); congruence.
  - inversion S.
  - inversion S as [|a' Sa | |]; subst. rewrite deserialize_list in H by auto.
    destruct (iterate v) as [l|] eqn:I; simpl in H; [|discriminate].
    destruct (mapM (deserialize a) l) as [rs|] eqn:M; simpl in H; [|discriminate]. injection H as <-.
    constructor. destruct (mapM_nth _ _ _ M) as [L N]. pose proof (json_iterate v l J I) as Jl. rewrite Forall_forall in Jl.
    apply Forall_forall. intros y Hy. apply In_nth_error in Hy. destruct Hy as [i Hi].
    destruct (nth_error l i) as [x|] eqn:Hx.
    + apply (IH Sa x y); eauto using nth_error_In.
    + apply nth_error_None in Hx. assert (Q : nth_error rs i <> None) by congruence. apply nth_error_Some in Q. lia.
  - inversion S.
  - inversion S as [| |args' Sa |]; subst. rewrite deserialize_tuple in H by auto.
    destruct (iterate v) as [l|] eqn:I; simpl in H; [|discriminate].
    destruct (zip_with deserialize args l) as [rs|] eqn:M; simpl in H; [|discriminate]. injection H as <-.
    destruct (zip_with_nth _ _ _ _ M) as [L N]. pose proof (json_iterate v l J I) as Jl. rewrite Forall_forall in Jl, IH, Sa.
    constructor; [lia|]. intros i y a Hy Ha. destruct (nth_error l i) as [x|] eqn:Hx.
    + pose proof (nth_error_In _ _ Ha) as Ia. apply (IH a Ia (Sa a Ia) x y); eauto using nth_error_In.
    + apply nth_error_None in Hx. assert (Q : nth_error rs i <> None) by congruence. apply nth_error_Some in Q. lia.
  - inversion S as [| | |a Sa]; subst. rewrite deserialize_optional in H. constructor.
    inversion IH as [|x l IHa _]; subst. apply (IHa Sa v); auto. destruct J; auto; congruence.
  - inversion S.
Qed.

Lemma accepts t : forall v, fits v t -> exists r, deserialize t v = Ok r /\ same_data v r.
Proof.
  induction t as [|c| |a IH|k a IHk IHa|args IH|args IH|n args IH] using ty_ind'; intros v F.
  - inversion F; subst. exists VNone. split; auto. constructor.
  - inversion F; subst; try (eexists; split; [reflexivity|constructor]).
  - inversion F; subst. exists VNone. split; auto. constructor.
  - inversion F as [ | | | | | | |v' l a' Hv Fl | |]; subst; [exists VNone; split; auto; constructor|].
    rewrite Forall_forall in Fl.
    destruct (mapM_ok (deserialize a) l) as [r M]; [intros x Hx; destruct (IH x (Fl x Hx)) as (y & E & _); eauto|].
    destruct (mapM_nth _ _ _ M) as [L N].
    exists (VList r). split; [destruct Hv as [-> | ->]; cbn [deserialize_argument iterate bind]; rewrite M; auto|].
    eapply s_seq; eauto. intros i x y Hx Hy. destruct (IH x) as (y' & E & D); [eauto using nth_error_In|].
    rewrite (N i x y Hx Hy) in E. injection E as <-. auto.
  - inversion F; subst. exists VNone. split; auto. constructor.
  - inversion F as [ | | | | | | | |v' l args' Hv Ll Fl |]; subst; [exists VNone; split; auto; constructor|].
    rewrite Forall_forall in IH.
    destruct (zip_with_ok deserialize args l) as [r M].
    { intros i a x Ha Hx. pose proof (nth_error_In _ _ Ha) as Ia. destruct (IH a Ia x) as (y & E & _); eauto. }
    destruct (zip_with_nth _ _ _ _ M) as [L N].
    exists (VTuple r). split; [destruct Hv as [-> | ->]; cbn [deserialize_argument iterate bind]; rewrite M; auto|].
    eapply s_seq; eauto; [rewrite L, Ll, Nat.min_id; auto|]. intros i x y Hx Hy.
    destruct (nth_error args i) as [a|] eqn:Ha.
    + pose proof (nth_error_In _ _ Ha) as Ia. destruct (IH a Ia x) as (y' & E & D); eauto.
      rewrite (N i a x y Ha Hx Hy) in E. injection E as <-. auto.
    + apply nth_error_None in Ha. assert (Q : nth_error l i <> None) by congruence. apply nth_error_Some in Q. lia.
  - inversion F as [ | | | | | | | | |v' a Fa]; subst; [exists VNone; split; [apply deserialize_none|constructor]|].
    inversion IH as [|x l IHa _]; subst. destruct (IHa v Fa) as (r & E & D). rewrite deserialize_optional.
    exists r. split; auto. destruct v; auto; simpl in E; rewrite <- E; destruct a; auto.
  - inversion F; subst. exists VNone. split; auto. constructor.
Qed.

(** ** Unions of classes *)

Lemma argmax_spec l i : argmax l = Some i ->
  i < List.length l /\ (forall j, j < i -> nth j l 0 < nth i l 0) /\ (forall j, j < List.length l -> nth j l 0 <= nth i l 0).
Proof.
  revert i. induction l as [|x l IH]; intros i H; simpl in H; [discriminate|].
  destruct (argmax l) as [k|] eqn:A.
  - destruct (IH k eq_refl) as (H1 & H2 & H3). destruct (Nat.leb_spec (nth k l 0) x); injection H as <-.
    + split; [simpl; lia|]. split; [intros; lia|]. intros [|j] Hj; simpl in *; auto. assert (j < List.length l) by lia. specialize (H3 j). lia.
    + split; [simpl; lia|]. split; intros [|j] Hj; simpl in *; auto; try lia; try (apply H2; lia). apply H3. lia.
  - destruct l; [|simpl in A; destruct (argmax l); [destruct (_ <=? _)|]; discriminate]. injection H as <-.
    split; [simpl; lia|]. split; intros j Hj; [lia|]. simpl in Hj. assert (j = 0) by lia. subst. auto.
Qed.

Lemma argmax_none l : argmax l = None -> l = [].
Proof. destruct l; auto. simpl. destruct (argmax l); [destruct (_ <=? _)|]; discriminate. Qed.

Lemma split_insert {A} (x c : A) pre0 : forall post0 pre post, pre0 ++ post0 = pre ++ c :: post ->
  exists pre' post', pre0 ++ x :: post0 = pre' ++ c :: post'
  /\ (forall d, In d pre' -> d = x \/ In d pre) /\ (forall d, In d post' -> d = x \/ In d post).
Proof.
  induction pre0 as [|y pre0 IH]; intros post0 pre post H; simpl in H.
  - subst post0. exists (x :: pre), post. split; auto. split; simpl; intuition.
  - destruct pre as [|z pre]; simpl in H; injection H as -> H.
    + exists [], (pre0 ++ x :: post0). split; auto. split; [intros d []|]. intros d I. rewrite <- H.
      apply in_app_iff in I. rewrite in_app_iff. simpl in I. intuition.
    + destruct (IH post0 pre post H) as (p & q & E & P & Q). exists (z :: p), q. split; [simpl; rewrite E; auto|].
      split; auto. intros d [<-|I]; simpl; auto. destruct (P d I); auto.
Qed.

Lemma union_loop_spec v n : forall cs, List.length cs < n ->
  (forall c, In c cs -> kind c = Serializable /\ builtin c = false) ->
  ((forall c, In c cs -> dict_to_object c v = Err KeyError)
   /\ union_loop kind dict_to_object mro n (map TClass cs) v = Err ValueError)
  \/ exists pre c post, cs = pre ++ c :: post
     /\ union_loop kind dict_to_object mro n (map TClass cs) v = dict_to_object c v
     /\ dict_to_object c v <> Err KeyError
     /\ (forall d, In d pre -> mro c <= mro d -> dict_to_object d v = Err KeyError)
     /\ (forall d, In d post -> mro c < mro d -> dict_to_object d v = Err KeyError).
Proof.
  induction n as [|n IH]; intros cs Hn Hk; [lia|].
  assert (M : mapM (mro_length mro) (map TClass cs) = Ok (map mro cs)).
  { clear. induction cs as [|c cs IH]; simpl; auto. rewrite IH. auto. }
  cbn [union_loop]. rewrite M. cbn [bind]. destruct (argmax (map mro cs)) as [i|] eqn:A.
  2: { apply argmax_none in A. destruct cs; [|discriminate]. left. split; auto. intros c []. }
  destruct (argmax_spec _ _ A) as (H1 & H2 & H3). rewrite map_length in H1, H3.
  destruct (nth_error cs i) as [x|] eqn:X; [|apply nth_error_None in X; lia].
  destruct (nth_error_split _ _ X) as (pre & post & E & L).
  assert (Nx : nth i (map TClass cs) TAny = TClass x).
  { rewrite E, map_app. simpl. rewrite app_nth2; rewrite map_length, L; auto. rewrite Nat.sub_diag. auto. }
  assert (Mx : nth i (map mro cs) 0 = mro x).
  { rewrite E, map_app. simpl. rewrite app_nth2; rewrite map_length, L; auto. rewrite Nat.sub_diag. auto. }
  rewrite Nx. assert (Ix : In x cs) by (rewrite E; apply in_app_iff; simpl; auto).
  destruct (Hk x Ix) as [K B]. assert (C : class_dict_to_object kind dict_to_object (TClass x) v = dict_to_object x v).
  { cbn [class_dict_to_object]. rewrite K, B. auto. }
  rewrite C.
  assert (Pre : forall d, In d pre -> mro x <= mro d -> dict_to_object d v = Err KeyError).
  { intros d Hd Le. exfalso. apply In_nth_error in Hd. destruct Hd as [j Hj].
    assert (j < List.length pre) by (apply nth_error_Some; congruence). specialize (H2 j ltac:(lia)).
    rewrite Mx in H2. rewrite E, map_app, app_nth1 in H2 by (rewrite map_length; lia).
    erewrite nth_error_nth in H2 by (apply map_nth_error; eauto). lia. }
  assert (Post : forall d, In d post -> mro x < mro d -> dict_to_object d v = Err KeyError).
  { intros d Hd Lt. exfalso. assert (Id : In d cs) by (rewrite E; apply in_app_iff; simpl; auto).
    apply In_nth_error in Id. destruct Id as [j Hj]. assert (j < List.length cs) by (apply nth_error_Some; congruence).
    specialize (H3 j ltac:(lia)). rewrite Mx in H3. erewrite nth_error_nth in H3 by (apply map_nth_error; eauto). lia. }
  assert (Rm : firstn i (map TClass cs) ++ skipn (S i) (map TClass cs) = map TClass (pre ++ post)).
  { rewrite E, !map_app. cbn [map]. rewrite <- L. replace (List.length pre) with (List.length (map TClass pre)) by apply map_length.
    rewrite firstn_app, firstn_all, Nat.sub_diag. cbn [firstn]. rewrite app_nil_r. f_equal.
    rewrite skipn_app, skipn_all2 by lia. replace (S (List.length (map TClass pre)) - List.length (map TClass pre)) with 1 by lia. auto. }
  destruct (dict_to_object x v) as [r|e] eqn:D.
  - right. exists pre, x, post. rewrite D. repeat split; auto. congruence.
  - destruct (match e with KeyError => true | _ => false end) eqn:Ke.
    + destruct e; try discriminate. rewrite Rm.
      destruct (IH (pre ++ post)) as [[All R]|(p & c & q & Ep & R & Nk & P & Q)].
      * rewrite E in Hn. rewrite app_length in *. simpl in Hn. lia.
      * intros c Hc. apply Hk. rewrite E. apply in_app_iff in Hc. apply in_app_iff. simpl. intuition.
      * left. split; auto. intros c Hc. rewrite E in Hc. apply in_app_iff in Hc. simpl in Hc.
        destruct Hc as [Hc|[<-|Hc]]; auto; apply All; apply in_app_iff; auto.
      * right. destruct (split_insert x c pre post p q Ep) as (p' & q' & Es & P' & Q'). exists p', c, q'.
        rewrite E, Es. repeat split; auto.
        -- intros d Hd Le. destruct (P' d Hd) as [->|I]; auto.
        -- intros d Hd Le. destruct (Q' d Hd) as [->|I]; auto.
    + right. exists pre, x, post. rewrite D. split; auto. split; [destruct e; auto; discriminate|].
      split; [intros X'; injection X' as ->; discriminate|]. auto.
Qed.
End Args.

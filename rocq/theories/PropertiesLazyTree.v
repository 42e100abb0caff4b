(** C114: lazy containers inside field lists, and classes whose [_fields_] is one container. *)
From Verif Require Import Base IntCodec BitStringIO Stream StreamSpec StreamProofs MinMax Marshal MarshalInd MarshalSpec FieldSpec SimFacts Lazy LazySpec LazyFacts LazyTree LazyTreeSpec LazyTreeFacts Repr LazyShow LazyTreeText.
From Verif Require PropertiesLazy.
From Coq Require Import ZArith List Bool String Lia.
Import ListNotations.
Open Scope string_scope.
Open Scope list_scope.
Open Scope Z_scope.

(** C114.  Field lists make no difference: two classes that declare the same fields and lazy containers in the same
    order, with whatever field lists around them, read the same objects from every input, construct the same objects,
    answer every sequence of uses of an object alike and give the same size. *)
Theorem C114_lists_make_no_difference : forall h cls cctx t t', leaves t = leaves t' ->
  (forall c s, tree_read h cls cctx t c s = tree_read h cls cctx t' c s) /\ (forall kw, tree_new t kw = tree_new t' kw)
  /\ (forall us o, history_tree h cls cctx t us o = history_tree h cls cctx t' us o) /\ (forall o, tree_sizeof t o = tree_sizeof t' o).
Proof.
  intros h cls cctx t t' E. repeat split; intros.
  - now rewrite !tree_read_leaves, E.
  - now rewrite !tree_new_leaves, E.
  - now rewrite !history_leaves, E.
  - now rewrite !tree_sizeof_leaves, E.
Qed.
Print Assumptions C114_lists_make_no_difference.

(** C114.  In particular such a class is like the one with its fields and lazy containers spelled out in one list, for which
    see C19, C64 and the other properties of Lazy.v. *)
Theorem C114_spelled_out : forall h cls cctx t,
  (forall c s, tree_read h cls cctx t c s = lazy_read h cls cctx (leaves t) c s) /\ (forall kw, tree_new t kw = lazy_new (leaves t) kw)
  /\ (forall us o, history_tree h cls cctx t us o = history_lazy h cls cctx (leaves t) us o) /\ (forall o, tree_sizeof t o = lazy_sizeof (leaves t) o)
  /\ (forall percent_d percent_f py_repr o, no_empty_list t ->
        tree_repr percent_d percent_f py_repr cls t o = lazy_repr percent_d percent_f py_repr cls (leaves t) o).
Proof.
  intros h cls cctx t. repeat split; intros.
  - apply tree_read_leaves.
  - apply tree_new_leaves.
  - apply history_leaves.
  - apply tree_sizeof_leaves.
  - now apply repr_leaves.
Qed.
Print Assumptions C114_spelled_out.

(** C114.  What the class without laziness reads, the class with lazy containers reads too, and no sequence of accesses,
    assignments and conversions tells the two objects apart... *)
Theorem C114_like_eager : forall h cls cctx t c s E s',
  Forall (item_ok h) (leaves t) -> NoDup (flat_map item_names (leaves t)) -> stream_ok s ->
  read h (MStruct cls cctx (plain_fields t)) c s = (Ok (VObj cls E), s') ->
  exists o, tree_read h cls cctx t c s = (Ok o, s')
    /\ forall us, history_tree h cls cctx t us o = history_eager h cls cctx (plain_fields t) us E.
Proof.
  intros h cls cctx t c s E s' Hi Hn Hs R. rewrite read_plain_struct in R.
  destruct (PropertiesLazy.C19_lazy_is_eager h cls cctx (leaves t) c s E s' Hi Hn Hs R) as (o & Ro & U).
  exists o. rewrite tree_read_leaves. split; [exact Ro|]. intros us. rewrite history_leaves, history_plain. apply U.
Qed.
Print Assumptions C114_like_eager.

(** ... and the same for objects constructed with values for all fields of the lazy containers. *)
Theorem C114_constructed : forall h cls cctx t kw us,
  Forall (item_ok h) (leaves t) -> NoDup (flat_map item_names (leaves t)) ->
  (forall n, In n (flat_map group_names (leaves t)) -> lookup kw n <> None) ->
  history_tree h cls cctx t us (tree_new t kw) = history_eager h cls cctx (plain_fields t) us (new_attrs (plain_fields t) kw).
Proof.
  intros h cls cctx t kw us Hi Hn Hk. rewrite history_leaves, tree_new_leaves, history_plain, new_plain_fields. now apply new_like_eager.
Qed.
Print Assumptions C114_constructed.

(** C114.  A class that is one lazy container, given as [_fields_] itself or in field lists, takes any input; an error
    in it is what the first access, assignment or conversion gives. *)
Theorem C114_error_deferred : forall h cls cctx t fs c s e s' n, leaves t = [ILazy fs] ->
  Forall lazy_field_ok fs -> (exists size, lazy_size fs = Ok size /\ size <= maxsize) -> stream_ok s ->
  In n (flat_map stored_names fs) ->
  read h (MStruct cls cctx (plain_fields t)) c s = (Err e, s') ->
  exists o s1, tree_read h cls cctx t c s = (Ok o, s1)
    /\ history_tree h cls cctx t [Get n] o = [AValue (Err e)]
    /\ (forall v, history_tree h cls cctx t [Set_ n v] o = [ADone (Err e)])
    /\ history_tree h cls cctx t [ToBytes] o = [ABytes (Err e)].
Proof.
  intros h cls cctx t fs c s e s' n L Hf Hz Hs Hn R. rewrite read_plain_struct, L in R.
  destruct (PropertiesLazy.C19_error_deferred h cls cctx fs c s e s' n Hf Hz Hs Hn R) as (o & s1 & Ro & G & S1 & B).
  exists o, s1. rewrite tree_read_leaves, L. split; [exact Ro|].
  repeat split; [|intros v|]; rewrite history_leaves, L; cbn [history_lazy use_lazy].
  - destruct (lazy_get _ _ _ _ _ _) as [r o']. cbn in G. now rewrite G.
  - specialize (S1 v). destruct (lazy_set _ _ _ _ _ _ _) as [r o']. cbn in S1. now rewrite S1.
  - destruct (lazy_to_bytes _ _ _ _ _) as [r o']. cbn in B. now rewrite B.
Qed.
Print Assumptions C114_error_deferred.

(** C114.  Nor do field lists show in the text of an object, whatever the texts of the values are, unless one is empty... *)
Theorem C114_repr : forall percent_d percent_f py_repr cls t t' o, no_empty_list t -> no_empty_list t' -> leaves t = leaves t' ->
  tree_repr percent_d percent_f py_repr cls t o = tree_repr percent_d percent_f py_repr cls t' o.
Proof. intros pd pf pr cls t t' o N N' E. now rewrite !repr_leaves, E. Qed.
Print Assumptions C114_repr.

(** ... Expected and not true: field lists never show.  An empty field list between other fields leaves a comma behind. *)
Theorem C114_empty_list_refuted : forall percent_d percent_f py_repr cls pre post o text, pre <> [] -> post <> [] ->
  tree_repr percent_d percent_f py_repr cls (TList (pre ++ post)) o = Ok text ->
  exists a b, text = (cls ++ "(" ++ a ++ ", " ++ b ++ ")")%string
    /\ tree_repr percent_d percent_f py_repr cls (TList (pre ++ TList [] :: post)) o = Ok (cls ++ "(" ++ a ++ ", , " ++ b ++ ")")%string.
Proof. exact empty_shows. Qed.
Print Assumptions C114_empty_list_refuted.

(** [_fields_ = [UBInt8("id"), FieldListContainer([FieldListContainer([Lazy(UBInt16("x"), FixedSizeString("y", 3))]),
    ULInt16("n")]), FieldListContainer([]), Lazy(UBInt8("z"))]] and [_fields_ = Lazy(UBInt16("x"))]. *)
Definition demo_x : field := FField "x" (MInt UBInt16Marshal) VNone.
Definition demo_y : field := FField "y" (MPadStr 3 (VBytes [0]) PRight) VNone.
Definition demo_tree : tree :=
  TList [ TItem (IField (FField "id" (MInt UBInt8Marshal) VNone));
          TList [TList [TItem (ILazy [demo_x; demo_y])]; TItem (IField (FField "n" (MInt ULInt16Marshal) VNone))];
          TList [];
          TItem (ILazy [FField "z" (MInt UBInt8Marshal) VNone]) ].
Definition demo_input : list Z := [7; 1; 2; 65; 66; 0; 3; 0; 9; 255].

Example C114_nonvacuous :
  Forall (item_ok HostLittle) (leaves demo_tree) /\ NoDup (flat_map item_names (leaves demo_tree)) /\ stream_ok (stream_of demo_input)
  /\ plain_fields demo_tree
     = [ FField "id" (MInt UBInt8Marshal) VNone; FGroup [FGroup [FGroup [demo_x; demo_y]]; FField "n" (MInt ULInt16Marshal) VNone]; FGroup [];
         FGroup [FField "z" (MInt UBInt8Marshal) VNone] ]
  /\ (exists E s', read HostLittle (MStruct "D" None (plain_fields demo_tree)) [] (stream_of demo_input) = (Ok (VObj "D" E), s') /\ rest s' = [255])
  /\ (exists o s', tree_read HostLittle "D" None demo_tree [] (stream_of demo_input) = (Ok o, s')
        /\ lo_attrs o = [("id", VInt 7); ("n", VInt 3)] /\ map fst (lo_data o) = [3; 1]%nat
        /\ history_tree HostLittle "D" None demo_tree [Get "z"; Set_ "y" (VBytes [67]); Get "x"; Get "n"; ToBytes] o
           = [AValue (Ok (VInt 9)); ADone (Ok tt); AValue (Ok (VInt 258)); AValue (Ok (VInt 3)); ABytes (Ok [7; 1; 2; 67; 0; 0; 3; 0; 9])]
        /\ fst (tree_sizeof demo_tree o) = Ok 9
        /\ tree_repr (fun _ => "1") (fun _ => "1.0") (fun _ => Ok "?") "D" demo_tree o = Ok "D(id=1, <lazy>, <lazy>, n=1, , <lazy>)")
  /\ no_empty_list (TList [TItem (ILazy [demo_x]); TList [TItem (ILazy [demo_y])]])
  /\ (exists s', read HostLittle (MStruct "D" None (plain_fields (TItem (ILazy [demo_x])))) [] (stream_of [1]) = (Err (NotEnoughDataError 2 1), s')).
Proof.
  split.
  { repeat apply Forall_cons; try apply Forall_nil; cbn [item_ok blind].
    - reflexivity.
    - split; [repeat constructor; unfold maxsize; cbn; lia|]. exists 5. split; [reflexivity|unfold maxsize; lia].
    - reflexivity.
    - split; [repeat constructor|]. exists 1. split; [reflexivity|unfold maxsize; lia]. }
  split; [cbn; repeat constructor; cbn; intuition discriminate|]. split; [apply stream_of_ok|]. split; [reflexivity|].
  split; [eexists _, _; split; vm_compute; reflexivity|]. split; [|split; [cbn; intuition discriminate|eexists; vm_compute; reflexivity]].
  eexists _, _. split; [vm_compute; reflexivity|]. repeat split; vm_compute; reflexivity.
Qed.

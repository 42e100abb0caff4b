(** Property C111: lazy containers inside of lazy containers. *)
From Verif Require Import Base IntCodec BitStringIO Stream StreamSpec StreamProofs MinMax Marshal FieldSpec Lazy LazySpec LazyBitsSpec LazyNest LazyNestSpec LazyNestFacts.
From Coq Require Import ZArith List Bool String Lia.
Import ListNotations.
Open Scope string_scope.
Open Scope list_scope.
Open Scope Z_scope.

(** C111.  Take a class with lazy containers, which may hold lazy containers to any depth next to ordinary and anonymous fields,
    bit fields and field lists of fixed size, all names being distinct.  Whatever the input, if the class without laziness can
    be read from it, then the lazy one can, taking the same bytes; and every history of uses gets the answers
    of [history_nview]: those of the object without laziness, except for the names in closed containers that are not fields of the
    outermost closed one.  A conversion that fails has opened the containers up to the field that cannot be written. *)
Theorem C111_history : forall h cls cctx class c s E s',
  Forall (outer_ok h) class -> NoDup (flat_map node_names class) -> NoDup (map fst (flat_map boxes_in class)) -> stream_ok s ->
  read h (MStruct cls cctx (map plain_node class)) c s = (Ok (VObj cls E), s') ->
  exists o, nest_read h cls cctx class c s = (Ok o, s')
    /\ forall us, history_nest h cls cctx class us o = history_nview h cls cctx class us (nest_read_view class E).
Proof. exact nest_history. Qed.
Print Assumptions C111_history.

(** C111.  After to_bytes, if it does not fail, there is no difference. *)
Theorem C111_bytes_first : forall h cls cctx class c s E s',
  Forall (outer_ok h) class -> NoDup (flat_map node_names class) -> NoDup (map fst (flat_map boxes_in class)) -> stream_ok s ->
  read h (MStruct cls cctx (map plain_node class)) c s = (Ok (VObj cls E), s') ->
  exists o, nest_read h cls cctx class c s = (Ok o, s')
    /\ forall us bytes, write_to_string h (MStruct cls cctx (map plain_node class)) (VObj cls E) = Ok bytes ->
       history_nest h cls cctx class (ToBytes :: us) o = history_eager h cls cctx (map plain_node class) (ToBytes :: us) E.
Proof. exact nest_bytes. Qed.
Print Assumptions C111_bytes_first.

(** Expected: a field in a container inside of another one can be read and assigned like any other.  Before a field of the outer
    container was looked at, reading it raises KeyError; a value that is assigned is seen until the outer container is decoded
    and then lost.  Looking at the outer container first gives the value in the data. *)
Theorem C111_inner_refuted : forall h cls cctx class c s E s',
  Forall (outer_ok h) class -> NoDup (flat_map node_names class) -> NoDup (map fst (flat_map boxes_in class)) -> stream_ok s ->
  read h (MStruct cls cctx (map plain_node class)) c s = (Ok (VObj cls E), s') ->
  exists o, nest_read h cls cctx class c s = (Ok o, s')
    /\ forall k ns k' ns' m n x, In (NLazy k ns) class -> In (NLazy k' ns') ns -> In m (named ns) -> In n (named ns') ->
       history_nest h cls cctx class [Get n; Set_ n x; Get n; Get m; Get n] o
       = [AValue (Err KeyError); ADone (Ok tt); AValue (Ok x); AValue (py_getattr (VObj cls E) m); AValue (py_getattr (VObj cls E) n)].
Proof. exact nest_hidden. Qed.
Print Assumptions C111_inner_refuted.

(** C111.  An object that was constructed with values for all fields of lazy containers is like one without laziness. *)
Theorem C111_constructed : forall h cls cctx class kw us,
  Forall (outer_ok h) class -> NoDup (flat_map node_names class) -> NoDup (map fst (flat_map boxes_in class)) ->
  (forall k ns n, In (k, ns) (flat_map boxes_in class) -> In n (named ns) -> lookup kw n <> None) ->
  history_nest h cls cctx class us (nest_new class kw) = history_eager h cls cctx (map plain_node class) us (new_attrs (map plain_node class) kw).
Proof. exact nest_constructed. Qed.
Print Assumptions C111_constructed.

(** C111.  Without a value for a field of a lazy container, whatever default it has, the field raises KeyError and to_bytes fails. *)
Theorem C111_missing_value : forall h cls cctx class kw k ns n,
  Forall (outer_ok h) class -> NoDup (flat_map node_names class) ->
  In (k, ns) (flat_map boxes_in class) -> In n (named ns) -> lookup kw n = None ->
  fst (nest_get h cls cctx class n (nest_new class kw)) = Err KeyError
  /\ forall bytes, fst (nest_to_bytes h cls cctx class (nest_new class kw)) <> Ok bytes.
Proof. exact nest_missing. Qed.
Print Assumptions C111_missing_value.

(** Three levels, with bits in the second. *)
Definition nest_class : list node :=
  [ NNamed "n" (MInt UBInt8Marshal) VNone;
    NLazy 0 [ NNamed "x" (MInt UBInt8Marshal) VNone;
              NLazy 1 [ NNamed "y" (MInt UBInt16Marshal) VNone; NOther (FBits [BField "a" (BMBits 3) (VInt 0); BField "b" (BMBits 5) (VInt 1)]);
                        NLazy 2 [ NNamed "z" (MInt UBInt8Marshal) VNone ] ] ];
    NLazy 3 [ NNamed "w" (MInt UBInt8Marshal) VNone ] ].
Definition nest_input : list Z := [5; 7; 1; 2; 171; 9; 200; 1].
Example C111_nonvacuous :
  Forall (outer_ok HostLittle) nest_class /\ NoDup (flat_map node_names nest_class) /\ NoDup (map fst (flat_map boxes_in nest_class)) /\ stream_ok (stream_of nest_input)
  /\ exists E s', read HostLittle (MStruct "N" None (map plain_node nest_class)) [] (stream_of nest_input) = (Ok (VObj "N" E), s') /\ rest s' = [1]
  /\ history_nview HostLittle "N" None nest_class
       [Get "y"; Get "a"; Get "z"; Set_ "z" (VInt 3); Get "z"; Get "x"; Get "z"; Get "a"; Get "y"; Get "a"; Get "z"; Set_ "y" (VInt 258); ToBytes; Get "w"]
       (nest_read_view nest_class E)
     = [AValue (Err KeyError); AValue (Ok (VInt 0)); AValue (Err KeyError); ADone (Ok tt); AValue (Ok (VInt 3)); AValue (Ok (VInt 7)); AValue (Ok (VInt 3)); AValue (Ok (VInt 0));
        AValue (Ok (VInt 258)); AValue (Ok (VInt 3)); AValue (Ok (VInt 9)); ADone (Ok tt); ABytes (Ok [5; 7; 1; 2; 171; 9; 200]); AValue (Ok (VInt 200))]
  /\ history_nview HostLittle "N" None nest_class [Get "x"; Set_ "y" (VInt (-1)); ToBytes; Get "a"; Get "z"; Get "w"; Set_ "y" (VInt 1); ToBytes; Get "z"] (nest_read_view nest_class E)
     = [AValue (Ok (VInt 7)); ADone (Ok tt); ABytes (Err InstructError); AValue (Ok (VInt 3)); AValue (Ok (VInt 9)); AValue (Ok (VInt 200)); ADone (Ok tt); ABytes (Ok [5; 7; 0; 1; 171; 9; 200]); AValue (Ok (VInt 9))]
  /\ history_nview HostLittle "N" None nest_class [Set_ "n" (VInt (-1)); ToBytes; Get "y"; Set_ "n" (VInt 1); Set_ "x" (VInt (-1)); ToBytes; Get "z"; Get "y"] (nest_read_view nest_class E)
     = [ADone (Ok tt); ABytes (Err InstructError); AValue (Err KeyError); ADone (Ok tt); ADone (Ok tt); ABytes (Err InstructError); AValue (Err KeyError); AValue (Ok (VInt 258))]
  /\ history_eager HostLittle "N" None (map plain_node nest_class) [Get "y"; Set_ "z" (VInt 3); ToBytes] E
     = [AValue (Ok (VInt 258)); ADone (Ok tt); ABytes (Ok [5; 7; 1; 2; 171; 3; 200])]
  /\ history_nest HostLittle "N" None nest_class [Get "z"; Set_ "n" (VInt 1); ToBytes]
       (nest_new nest_class [("x", VInt 2); ("y", VInt 3); ("z", VInt 4); ("w", VInt 6); ("n", VInt 7); ("b", VInt 9)])
     = [AValue (Ok (VInt 4)); ADone (Ok tt); ABytes (Ok [1; 2; 0; 3; 72; 4; 6])]
  /\ fst (nest_to_bytes HostLittle "N" None nest_class (nest_new nest_class [("x", VInt 2); ("y", VInt 3); ("w", VInt 6); ("n", VInt 7)])) = Err KeyError.
Proof.
  split.
  { assert (B : forall n ns z, lazy_size (map plain_node ns) = Ok z -> z <= 1000 -> Forall inner_ok ns -> inner_ok (NLazy n ns)).
    { intros n ns z Hz Lz H. apply inner_lazy. split; [|exact H]. exists z. split; [exact Hz|unfold maxsize; lia]. }
    repeat apply Forall_cons; try apply Forall_nil; cbn [outer_ok]; [cbn [blind plain_node]; reflexivity| |].
    - apply (B _ _ 5); [reflexivity|lia|]. apply Forall_cons; [exact Logic.I|]. apply Forall_cons; [|apply Forall_nil].
      apply (B _ _ 4); [reflexivity|lia|]. apply Forall_cons; [exact Logic.I|]. apply Forall_cons; [cbn; unfold maxsize; lia|]. apply Forall_cons; [|apply Forall_nil].
      apply (B _ _ 1); [reflexivity|lia|]. apply Forall_cons; [exact Logic.I|apply Forall_nil].
    - apply (B _ _ 1); [reflexivity|lia|]. apply Forall_cons; [exact Logic.I|apply Forall_nil]. }
  split; [cbn; repeat constructor; cbn; intuition discriminate|]. split; [cbn; repeat constructor; cbn; intuition discriminate|].
  split; [apply stream_of_ok|]. eexists _, _. split; [vm_compute; reflexivity|]. repeat split; vm_compute; reflexivity.
Qed.

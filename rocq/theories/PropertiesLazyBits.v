(** Property C110: bit fields and field lists inside of lazy containers. *)
From Verif Require Import Base IntCodec BitStringIO Stream StreamSpec StreamProofs MinMax Marshal FieldSpec Lazy LazySpec LazyBitsSpec LazyBitsFacts.
From Coq Require Import ZArith List Bool String Lia.
Import ListNotations.
Open Scope string_scope.
Open Scope list_scope.
Open Scope Z_scope.

(** C110.  Take a class whose lazy containers hold ordinary and anonymous fields, bit fields and field lists of fixed size, and
    whose other fields do not look at the object while they are read, all names being distinct.  Whatever the input, if the
    class without laziness can be read from it, then the lazy one can, taking the same bytes; and every history of uses gets
    the answers of [history_view]: those of the object without laziness, except that the bit fields of a closed container
    are ordinary attributes that know nothing of the data, and only its ordinary fields and [to_bytes] open it. *)
Theorem C110_history : forall h cls cctx items c s E s',
  Forall (member_item_ok h) items -> NoDup (flat_map item_names items) -> stream_ok s ->
  read h (MStruct cls cctx (map eager items)) c s = (Ok (VObj cls E), s') ->
  exists o, lazy_read h cls cctx items c s = (Ok o, s')
    /\ forall us, history_lazy h cls cctx items us o = history_view h cls cctx items us (just_read items E).
Proof. exact boxes_history. Qed.
Print Assumptions C110_history.

(** C110.  After to_bytes, which gives the bytes it gives without laziness, there is no difference. *)
Theorem C110_bytes_first : forall h cls cctx items c s E s' bytes,
  Forall (member_item_ok h) items -> NoDup (flat_map item_names items) -> stream_ok s ->
  read h (MStruct cls cctx (map eager items)) c s = (Ok (VObj cls E), s') ->
  write_to_string h (MStruct cls cctx (map eager items)) (VObj cls E) = Ok bytes ->
  exists o, lazy_read h cls cctx items c s = (Ok o, s')
    /\ forall us, history_lazy h cls cctx items (ToBytes :: us) o = history_eager h cls cctx (map eager items) (ToBytes :: us) E.
Proof. exact bits_bytes_first. Qed.
Print Assumptions C110_bytes_first.

(** C110.  Nor is there one for a program that first looks at one ordinary field of each container with bit fields. *)
Theorem C110_touched_first : forall h cls cctx items c s E s' ds,
  Forall (member_item_ok h) items -> NoDup (flat_map item_names items) -> stream_ok s ->
  read h (MStruct cls cctx (map eager items)) c s = (Ok (VObj cls E), s') ->
  (forall d fs, In d ds -> In (ILazy fs) items -> ~ In d (flat_map silent fs)) ->
  (forall fs, In (ILazy fs) items -> flat_map silent fs <> [] -> exists d, In d ds /\ In d (flat_map opening fs)) ->
  exists o, lazy_read h cls cctx items c s = (Ok o, s')
    /\ forall us, history_lazy h cls cctx items (map Get ds ++ us) o = history_eager h cls cctx (map eager items) (map Get ds ++ us) E.
Proof. exact bits_touched. Qed.
Print Assumptions C110_touched_first.

(** Expected: a bit field of an object that was read has the value in the data, and keeps a value that is assigned to it.
    Before its container is open, it has the value of a newly constructed object, whatever the data, and looking at it opens
    nothing; an assigned value is seen until another field of the container is looked at or the object is converted, and is
    then lost: it is not in the bytes either. *)
Theorem C110_bits_refuted : forall h cls cctx items c s E s',
  Forall (member_item_ok h) items -> NoDup (flat_map item_names items) -> stream_ok s ->
  read h (MStruct cls cctx (map eager items)) c s = (Ok (VObj cls E), s') ->
  exists o, lazy_read h cls cctx items c s = (Ok o, s')
    /\ (forall fs n, In (ILazy fs) items -> In n (flat_map silent fs) ->
          lazy_get h cls cctx items n o = (py_getattr (VObj cls (new_attrs (map eager items) [])) n, o))
    /\ (forall fs n d x, In (ILazy fs) items -> In n (flat_map silent fs) -> In d (flat_map opening fs) ->
          history_lazy h cls cctx items [Set_ n x; Get n; Get d; Get n] o
          = [ADone (Ok tt); AValue (Ok x); AValue (py_getattr (VObj cls E) d); AValue (py_getattr (VObj cls E) n)])
    /\ (forall fs n x, In (ILazy fs) items -> In n (flat_map silent fs) ->
          history_lazy h cls cctx items [Set_ n x; ToBytes] o
          = [ADone (Ok tt); ABytes (write_to_string h (MStruct cls cctx (map eager items)) (VObj cls E))]).
Proof. exact bits_front. Qed.
Print Assumptions C110_bits_refuted.

(** C110.  In an object that was constructed, bit fields in lazy containers have the values they have without laziness: from
    the keyword arguments or their defaults (which the ordinary fields there ignore, C64). *)
Theorem C110_constructed : forall h cls cctx items kw fs n,
  Forall (member_item_ok h) items -> NoDup (flat_map item_names items) -> In (ILazy fs) items -> In n (flat_map silent fs) ->
  lazy_get h cls cctx items n (lazy_new items kw) = (py_getattr (VObj cls (new_attrs (map eager items) kw)) n, lazy_new items kw).
Proof. exact bits_new. Qed.
Print Assumptions C110_constructed.

(** A container with a field, two bit fields and a field in a field list, and another with bits only. *)
Definition bits_items : list item :=
  [ ILazy [FField "x" (MInt UBInt8Marshal) VNone; FBits [BField "a" (BMBits 3) (VInt 0); BField "b" (BMBits 5) (VInt 1)];
           FGroup [FField "y" (MInt UBInt8Marshal) VNone]];
    IField (FField "n" (MInt UBInt8Marshal) VNone);
    ILazy [FBits [BField "c" (BMBits 8) VNone]] ].
Definition bits_input : list Z := [7; 171; 9; 5; 200; 1].
Example C110_nonvacuous :
  Forall (member_item_ok HostLittle) bits_items /\ NoDup (flat_map item_names bits_items) /\ stream_ok (stream_of bits_input)
  /\ exists E s', read HostLittle (MStruct "B" None (map eager bits_items)) [] (stream_of bits_input) = (Ok (VObj "B" E), s') /\ rest s' = [1]
  /\ write_to_string HostLittle (MStruct "B" None (map eager bits_items)) (VObj "B" E) = Ok [7; 171; 9; 5; 200]
  /\ history_view HostLittle "B" None bits_items
       [Get "a"; Get "b"; Get "y"; Set_ "a" (VInt 6); Get "a"; Get "c"; Get "x"; Get "a"; Get "b"; Get "y"; Get "c"; Set_ "a" (VInt 6); ToBytes; Get "c"]
       (just_read bits_items E)
     = [AValue (Ok (VInt 0)); AValue (Ok (VInt 1)); AValue (Ok VNone); ADone (Ok tt); AValue (Ok (VInt 6)); AValue (Ok VNone); AValue (Ok (VInt 7));
        AValue (Ok (VInt 3)); AValue (Ok (VInt 21)); AValue (Ok (VInt 9)); AValue (Ok VNone); ADone (Ok tt); ABytes (Ok [7; 174; 9; 5; 200]); AValue (Ok (VInt 200))]
  /\ history_eager HostLittle "B" None (map eager bits_items) [Get "a"; Set_ "a" (VInt 6); Get "x"; Get "a"] E
     = [AValue (Ok (VInt 3)); ADone (Ok tt); AValue (Ok (VInt 7)); AValue (Ok (VInt 6))].
Proof.
  split.
  { repeat apply Forall_cons; try apply Forall_nil; cbn [member_item_ok blind].
    - split; [repeat constructor; unfold maxsize; cbn; lia|]. exists 3. split; [reflexivity|unfold maxsize; lia].
    - reflexivity.
    - split; [repeat constructor; unfold maxsize; cbn; lia|]. exists 1. split; [reflexivity|unfold maxsize; lia]. }
  split; [cbn; repeat constructor; cbn; intuition discriminate|].
  split; [apply stream_of_ok|]. eexists _, _. split; [vm_compute; reflexivity|]. repeat split; vm_compute; reflexivity.
Qed.

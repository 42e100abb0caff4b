(** Property C96: printing objects with lazy containers.

    [pd] is ['%d' % n], [pf] is ['%f' % x], [pr] is [repr]. *)
From Verif Require Import Base IntCodec Stream StreamSpec MinMax Marshal FieldSpec Repr Lazy LazySpec LazyShow LazyShowSpec LazyShowFacts LazyFacts LazyText PropertiesLazy.
From Coq Require Import ZArith List Bool String Lia.
Import ListNotations.
Open Scope string_scope.
Open Scope list_scope.
Open Scope Z_scope.

(** ** C96.  After any uses of an object that was read (in which every conversion to bytes succeeded), the text is that of
    the object of the class without laziness after the same uses, except that a container whose values none of the uses
    needed shows [<lazy>] for each of its fields.  So printing is no use: it decodes nothing. *)
Theorem C96_text : forall h cls cctx items, Forall (item_ok h) items -> NoDup (flat_map item_names items) ->
  forall pd pf pr c s E s', stream_ok s -> read h (MStruct cls cctx (map eager items)) c s = (Ok (VObj cls E), s') ->
  exists o, lazy_read h cls cctx items c s = (Ok o, s')
    /\ forall us, (forall e, ~ In (ABytes (Err e)) (history_lazy h cls cctx items us o)) ->
       lazy_repr pd pf pr cls items (after_lazy h cls cctx items us o)
       = text_after pd pf pr cls items us (after_eager h cls cctx (map eager items) us E).
Proof. exact lazy_text. Qed.
Print Assumptions C96_text.

(** In particular, once every container was needed, the text is the same as without laziness. *)
Theorem C96_like_eager : forall h cls cctx items, Forall (item_ok h) items -> NoDup (flat_map item_names items) ->
  forall pd pf pr c s E s' us, stream_ok s -> read h (MStruct cls cctx (map eager items)) c s = (Ok (VObj cls E), s') ->
  Forall (fun i => match i with ILazy fs => Exists (fun u => needs u fs = true) us | IField _ => True end) items ->
  exists o, lazy_read h cls cctx items c s = (Ok o, s')
    /\ ((forall e, ~ In (ABytes (Err e)) (history_lazy h cls cctx items us o)) ->
       lazy_repr pd pf pr cls items (after_lazy h cls cctx items us o)
       = to_repr pd pf pr (MStruct cls cctx (map eager items)) (VObj cls (after_eager h cls cctx (map eager items) us E))).
Proof.
  intros h cls cctx items H N pd pf pr c s E s' us O R T. destruct (lazy_text h cls cctx items H N pd pf pr c s E s' O R) as (o & L & X).
  exists o. split; [exact L|]. intros B. rewrite (X us B). now apply lazy_touched_like_eager.
Qed.
Print Assumptions C96_like_eager.

(** Bit fields directly in a lazy container are not shown as [<lazy>]: an object that was read cannot be printed, as long
    as nothing decoded the container. *)
Theorem C96_bits_refuted : forall pd pf pr h cls cctx n w bs fs c s o s',
  lookup (item_class_attrs (ILazy (FBits (BField n (BMBits w) VNone :: bs) :: fs))) n = None ->
  lazy_read h cls cctx [ILazy (FBits (BField n (BMBits w) VNone :: bs) :: fs)] c s = (Ok o, s') ->
  lazy_repr pd pf pr cls [ILazy (FBits (BField n (BMBits w) VNone :: bs) :: fs)] o = Err TypeError.
Proof. exact lazy_bits_unprintable. Qed.
Print Assumptions C96_bits_refuted.

(** Every named entry of a container whose data is waiting is shown as [<lazy>], also a constant; afterwards a constant is
    shown as without laziness. *)
Theorem C96_waiting : forall pd pf pr cls fs o, Forall (fun f => exists n, declares n f) fs -> pending 0 (lo_data o) <> None ->
  lazy_repr pd pf pr cls [ILazy fs] o = Ok (cls ++ "(" ++ join ", " (map (fun _ => "<lazy>") fs) ++ ")")%string.
Proof. exact waiting. Qed.
Print Assumptions C96_waiting.
Theorem C96_constant : forall pd pf pr cls cctx n m k o, pending 0 (lo_data o) = None ->
  lazy_repr pd pf pr cls [ILazy [FConst n m k]] o = to_repr pd pf pr (MStruct cls cctx [FConst n m k]) (VObj cls (lo_attrs o)).
Proof. exact decoded_constant. Qed.
Print Assumptions C96_constant.

(** A new object cannot be printed, unless the constructor got a value for every field in its lazy containers. *)
Theorem C96_new_refuted : forall pd pf pr h cls items kw n, Forall (item_ok h) items -> NoDup (flat_map item_names items) ->
  In n (flat_map group_names items) -> lookup kw n = None ->
  (exists e, lazy_repr pd pf pr cls items (lazy_new items kw) = Err e)
  /\ forall m d fs, items = [ILazy (FField n m d :: fs)] -> lazy_repr pd pf pr cls items (lazy_new items kw) = Err KeyError.
Proof.
  intros pd pf pr h cls items kw n H N G K. split; [exact (new_unprintable pd pf pr h cls items kw n H N G K)|]. intros m d fs ->.
  apply unset_first; [reflexivity|]. pose proof (new_unset h cls None _ kw n H N G K) as U. unfold lazy_get in U. cbn [owner existsb lazy_name] in U. rewrite String.eqb_refl in U. cbn [orb] in U.
  revert U. generalize (eq_refl (lo_data (lazy_new [ILazy (FField n m d :: fs)] kw))). generalize (lazy_new [ILazy (FField n m d :: fs)] kw) at 1 3 4. intros o P U.
  unfold sbind, instantiate, sget, slift in U. rewrite P in U. cbn [lazy_new lo_data pending fst] in U. destruct (lookup (lo_attrs o) n); [discriminate U|reflexivity].
Qed.
Print Assumptions C96_new_refuted.

(** ** Examples (the class of C19) *)
Definition dig (z : Z) : string := if z =? 7 then "7" else if z =? 258 then "258" else if z =? 3 then "3" else if z =? 9 then "9" else if z =? 1 then "1" else "?".
Definition reprv (v : value) : res string := Ok "'..'"%string.
Definition read_demo : lobj := match fst (lazy_read HostLittle "D" None demo_items [] (stream_of demo_input)) with Ok o => o | Err _ => mkLobj [] [] end.
Example C96_nonvacuous :
  lazy_repr dig dig reprv "D" demo_items read_demo = Ok "D(id=7, <lazy>, <lazy>, n=3, <lazy>, <1 bytes padding>)"%string
  /\ lazy_repr dig dig reprv "D" demo_items (after_lazy HostLittle "D" None demo_items [Get "id"; Get "y"] read_demo)
     = Ok "D(id=7, x=258, y='..', n=3, <lazy>, <1 bytes padding>)"%string
  /\ lazy_repr dig dig reprv "D" demo_items (after_lazy HostLittle "D" None demo_items [ToBytes] read_demo)
     = Ok "D(id=7, x=258, y='..', n=3, z=In(a=9), <1 bytes padding>)"%string
  /\ history_lazy HostLittle "D" None demo_items [Get "id"; Get "y"; ToBytes] read_demo
     = [AValue (Ok (VInt 7)); AValue (Ok (VBytes [65; 66])); ABytes (Ok [7; 1; 2; 65; 66; 0; 3; 0; 9; 0])].
Proof. vm_compute. auto. Qed.
Example C96_bits_case : exists o s', lazy_read HostLittle "B" None [ILazy [FBits [BField "a" (BMBits 3) VNone; BField "b" (BMBits 5) VNone]]] [] (stream_of [171]) = (Ok o, s')
  /\ lazy_repr dig dig reprv "B" [ILazy [FBits [BField "a" (BMBits 3) VNone; BField "b" (BMBits 5) VNone]]] o = Err TypeError.
Proof.
  eexists _, _. split; [vm_compute; reflexivity|]. refine (C96_bits_refuted dig dig reprv HostLittle "B" None "a" 3 [BField "b" (BMBits 5) VNone] [] [] (stream_of [171]) _ _ eq_refl _). vm_compute. reflexivity.
Qed.
Definition const_demo : list item := [ILazy [FConst "k" (MInt (mkFmt EBig false I8)) (VInt 7)]].
Example C96_constant_case : exists o s', lazy_read HostLittle "K" None const_demo [] (stream_of [7]) = (Ok o, s')
  /\ pending 0 (lo_data o) <> None /\ lazy_repr dig dig reprv "K" const_demo o = Ok "K(<lazy>)"%string
  /\ lazy_repr dig dig reprv "K" const_demo (lazy_new const_demo []) = Ok "K(k=7 (const))"%string.
Proof. eexists _, _. split; [vm_compute; reflexivity|]. split; [discriminate|]. split; vm_compute; reflexivity. Qed.
Example C96_new_case : lazy_repr dig dig reprv "D" demo_items (lazy_new demo_items [("id", VInt 7)]) = Err KeyError.
Proof. vm_compute. reflexivity. Qed.

(** Properties C19 and C64: lazy containers. *)
From Verif Require Import Base IntCodec BitStringIO Stream StreamSpec StreamProofs MinMax Marshal MarshalInd MarshalSpec
  FieldSpec SimFacts SizeSpec Lazy LazySpec LazyProofs LazyFacts LazySizes LazyConst.
From Coq Require Import ZArith List Bool String Lia.
Import ListNotations.
Open Scope string_scope.
Open Scope list_scope.
Open Scope Z_scope.

(** C19.  Take a class whose lazy containers hold ordinary and anonymous fields of fixed size and
    whose other fields do not look at the object while they are read, all names being distinct.
    Whatever the input, if the same class without laziness can be read from it, then the lazy one
    can, taking the same bytes, and from then on no program using the object - getting and setting
    attributes and converting to bytes, in any order and any number of times - can tell the two
    apart. *)
Theorem C19_lazy_is_eager : forall h cls cctx items c s E s',
  Forall (item_ok h) items -> NoDup (flat_map item_names items) -> stream_ok s ->
  read h (MStruct cls cctx (map eager items)) c s = (Ok (VObj cls E), s') ->
  exists o, lazy_read h cls cctx items c s = (Ok o, s')
    /\ forall us, history_lazy h cls cctx items us o = history_eager h cls cctx (map eager items) us E.
Proof. intros h cls cctx items c s E s' H N. exact (lazy_is_eager h cls cctx items H N c s E s'). Qed.
Print Assumptions C19_lazy_is_eager.

(** C19.  Errors in the data come later: an object that is one lazy container is read from any
    input, and if reading it without laziness fails, the same error is what the first access,
    assignment or conversion gives. *)
Theorem C19_error_deferred : forall h cls cctx fs c s e s' n,
  Forall lazy_field_ok fs -> (exists size, lazy_size fs = Ok size /\ size <= maxsize) -> stream_ok s ->
  In n (flat_map stored_names fs) ->
  read h (MStruct cls cctx [FGroup fs]) c s = (Err e, s') ->
  exists o s1, lazy_read h cls cctx [ILazy fs] c s = (Ok o, s1) /\ fst (lazy_get h cls cctx [ILazy fs] n o) = Err e
    /\ (forall v, fst (lazy_set h cls cctx [ILazy fs] n v o) = Err e) /\ fst (lazy_to_bytes h cls cctx [ILazy fs] o) = Err e.
Proof. exact lazy_error. Qed.
Print Assumptions C19_error_deferred.

(** C19.  When an object whose values fit the space declared for them has been converted to bytes, sizeof is
    the number of bytes, and it was before, without decoding anything. *)
Theorem C19_sizeof : forall h cls cctx items o bytes o', Forall (item_ok h) items -> NoDup (flat_map item_names items) ->
  (forall fs size, In (ILazy fs) items -> lazy_size fs = Ok size -> size < maxsize) ->
  lazy_to_bytes h cls cctx items o = (Ok bytes, o') -> Forall (fun i => fits_field true (eager i) (lo_attrs o')) items ->
  lazy_sizeof items o = (Ok (zlen bytes), o) /\ lazy_sizeof items o' = (Ok (zlen bytes), o').
Proof. exact lazy_sizeof_exact. Qed.
Print Assumptions C19_sizeof.

(** A header, two lazy containers around a field, one of them with a padded string and a nested
    struct. *)
Definition demo_items : list item :=
  [ IField (FField "id" (MInt UBInt8Marshal) VNone);
    ILazy [FField "x" (MInt UBInt16Marshal) VNone; FField "y" (MPadStr 3 (VBytes [0]) PRight) VNone];
    IField (FField "n" (MInt ULInt16Marshal) VNone);
    ILazy [FField "z" (MStruct "In" None [FField "a" (MInt UBInt8Marshal) VNone]) VNone; FAnon (MBytePad 1 0)] ].
Definition demo_input : list Z := [7; 1; 2; 65; 66; 0; 3; 0; 9; 0; 255].

Example C19_nonvacuous :
  Forall (item_ok HostLittle) demo_items /\ NoDup (flat_map item_names demo_items) /\ stream_ok (stream_of demo_input)
  /\ (exists E s', read HostLittle (MStruct "D" None (map eager demo_items)) [] (stream_of demo_input) = (Ok (VObj "D" E), s')
        /\ rest s' = [255]
        /\ history_eager HostLittle "D" None (map eager demo_items)
             [Get "x"; Set_ "y" (VBytes [67]); Get "n"; ToBytes; Set_ "x" (VInt 70000); Get "x"; ToBytes; Get "w"] E
           = [AValue (Ok (VInt 258)); ADone (Ok tt); AValue (Ok (VInt 3)); ABytes (Ok [7; 1; 2; 67; 0; 0; 3; 0; 9; 0]);
              ADone (Ok tt); AValue (Ok (VInt 70000)); ABytes (Err InstructError); AValue (Err AttributeError)])
  /\ (exists s', read HostLittle (MStruct "D" None [FGroup [FField "x" (MInt UBInt16Marshal) VNone]]) [] (stream_of [1]) = (Err (NotEnoughDataError 2 1), s')).
Proof.
  split.
  { repeat apply Forall_cons; try apply Forall_nil; cbn [item_ok blind].
    - reflexivity.
    - split; [repeat constructor; unfold maxsize; cbn; lia|]. exists 5. split; [reflexivity|unfold maxsize; lia].
    - reflexivity.
    - split; [repeat constructor; unfold maxsize; cbn; lia|]. exists 2. split; [reflexivity|unfold maxsize; lia]. }
  split; [cbn; repeat constructor; cbn; intuition discriminate|].
  split; [apply stream_of_ok|]. split.
  - eexists _, _. split; [vm_compute; reflexivity|]. split; vm_compute; reflexivity.
  - eexists. vm_compute. reflexivity.
Qed.

Example C19_nonvacuous_sizeof :
  exists o bytes o', fst (lazy_read HostLittle "D" None demo_items [] (stream_of demo_input)) = Ok o
    /\ lazy_to_bytes HostLittle "D" None demo_items o = (Ok bytes, o') /\ zlen bytes = 10
    /\ Forall (fun i => fits_field true (eager i) (lo_attrs o')) demo_items /\ lazy_sizeof demo_items o = (Ok 10, o).
Proof.
  eexists _, _, _. split; [vm_compute; reflexivity|]. split; [vm_compute; reflexivity|]. split; [vm_compute; reflexivity|]. split; [|vm_compute; reflexivity].
  repeat apply Forall_cons; try apply Forall_nil; cbn; try exact Logic.I.
  - split; [exact Logic.I|]. split; [|exact Logic.I]. intros st n E1 E2. vm_compute in E1. injection E1 as <-. vm_compute in E2. injection E2 as <-. lia.
  - split; [|split; [lia|exact Logic.I]]. intros a E. injection E as <-. cbn. auto.
Qed.

(** C64.  An object constructed with values for all fields of its lazy containers behaves like one
    of the class without laziness... *)
Theorem C64_constructed_like_eager : forall h cls cctx items kw us,
  Forall (item_ok h) items -> NoDup (flat_map item_names items) ->
  (forall n, In n (flat_map group_names items) -> lookup kw n <> None) ->
  history_lazy h cls cctx items us (lazy_new items kw)
  = history_eager h cls cctx (map eager items) us (new_attrs (map eager items) kw).
Proof. exact new_like_eager. Qed.
Print Assumptions C64_constructed_like_eager.

(** ... but the defaults declared for those fields are ignored: without a value in the constructor
    the field is missing, and looking at it is a KeyError. *)
Theorem C64_default_ignored : forall h cls cctx items kw n,
  Forall (item_ok h) items -> NoDup (flat_map item_names items) ->
  In n (flat_map group_names items) -> lookup kw n = None ->
  fst (lazy_get h cls cctx items n (lazy_new items kw)) = Err KeyError.
Proof. exact new_unset. Qed.
Print Assumptions C64_default_ignored.

(** C64.  Every name that belongs to a lazy container accepts any value once the data has been
    decoded, also if it is a constant there... *)
Theorem C64_any_assignment : forall h cls cctx pre fs post n v o,
  (forall gs, In (ILazy gs) pre -> Forall (fun f => ~ declares n f) gs) -> Exists (declares n) fs -> pending (List.length pre) (lo_data o) = None ->
  exists o', lazy_set h cls cctx (pre ++ ILazy fs :: post) n v o = (Ok tt, o') /\ fst (lazy_get h cls cctx (pre ++ ILazy fs :: post) n o') = Ok v.
Proof. exact set_declared. Qed.
Print Assumptions C64_any_assignment.

(** ... and a constant in a lazy container cannot be looked at before that. *)
Theorem C64_constant_unreadable : forall h cls cctx pre post n m x o,
  (forall gs, In (ILazy gs) pre -> Forall (fun f => ~ declares n f) gs) -> lookup (lo_attrs o) n = None ->
  exists e, fst (lazy_get h cls cctx (pre ++ ILazy [FConst n m x] :: post) n o) = Err e.
Proof.
  intros h cls cctx pre post n m x o H L. apply (lazy_constant h cls cctx _ n (List.length pre) [FConst n m x] m x); auto.
  apply (owner_at n pre H [FConst n m x] post 0). now constructor.
Qed.
Print Assumptions C64_constant_unreadable.

(** A constant in a group inside of a lazy container is an ordinary constant: it can be read at once,
    and takes no other value. *)
Theorem C64_grouped_constant : forall h cls cctx items fs gs n x,
  In (ILazy fs) items -> In (FGroup gs) fs -> In (n, x) (class_attrs gs) ->
  (forall y, In (n, y) (class_attrs (map eager items)) -> y = x) ->
  (forall gs f, In (ILazy gs) items -> In f gs -> ~ declares n f) ->
  (forall v o, lazy_set h cls cctx items n v o = (if py_eq v x then Ok tt else Err InstructError, o))
  /\ (~ In n (flat_map stored_names (map eager items)) ->
      forall kw, lazy_get h cls cctx items n (lazy_new items kw) = (Ok x, lazy_new items kw)).
Proof.
  intros h cls cctx items fs gs n x I G C U D. split.
  - intros v o. now apply (grouped_constant h cls cctx items fs gs n x v o).
  - intros N kw. now apply (grouped_constant_new h cls cctx items fs gs n x kw).
Qed.
Print Assumptions C64_grouped_constant.

(** Which fields a lazy container accepts: those of one size; it takes as many bytes of the input as their
    sizes add up to.  Any other field is a ValueError when the class is defined. *)
Theorem C64_one_size_only : forall fs sizes, Forall2 (fun f mm => min_max_field f = Ok mm) fs sizes ->
  (Forall (fun mm => mm_min mm = mm_max mm) sizes -> lazy_size fs = Ok (fold_right Z.add 0 (map mm_min sizes)))
  /\ (Exists (fun mm => mm_min mm <> mm_max mm) sizes -> lazy_size fs = Err ValueError).
Proof.
  intros fs sizes F. induction F as [|f mm fs sizes E F [IH1 IH2]]; cbn [lazy_size].
  - split; [reflexivity|]. intros X. inversion X.
  - rewrite E. cbn [rbind]. unfold mm_is_fixed. split.
    + intros X. inversion X as [|? ? X1 X2]; subst. rewrite X1, Z.eqb_refl. cbn [negb]. rewrite (IH1 X2). cbn [rbind map fold_right]. now rewrite X1.
    + intros X. destruct (Z.eqb_spec (mm_min mm) (mm_max mm)) as [Q|Q]; cbn [negb]; [|reflexivity].
      inversion X as [? ? X1|? ? X1]; subst; [contradiction|]. now rewrite (IH2 X1).
Qed.
Print Assumptions C64_one_size_only.
Example C64_one_size_nonvacuous :
  let one := FField "x" (MInt UBInt16Marshal) VNone in let two := FField "y" (MVarArr (MInt UBInt8Marshal) (MInt UBInt16Marshal)) VNone in let three := FField "z" (MInt UBInt8Marshal) VNone in
  Forall2 (fun f mm => min_max_field f = Ok mm) [one; three] [mkMM 2 2; mkMM 1 1] /\ lazy_size [one; three] = Ok 3
  /\ (exists mm, min_max_field two = Ok mm /\ mm_min mm <> mm_max mm) /\ lazy_size [one; two; three] = Err ValueError.
Proof. cbn zeta. split; [repeat constructor|]. split; [reflexivity|]. split; [eexists; split; [reflexivity|discriminate]|reflexivity]. Qed.
Example C64_grouped_nonvacuous :
  let items := [IField (FField "id" (MInt UBInt8Marshal) VNone); ILazy [FField "x" (MInt UBInt8Marshal) VNone; FGroup [FConst "k" (MInt UBInt8Marshal) (VInt 3)]]] in
  In ("k"%string, VInt 3) (class_attrs [FConst "k" (MInt UBInt8Marshal) (VInt 3)])
  /\ (forall y, In ("k"%string, y) (class_attrs (map eager items)) -> y = VInt 3)
  /\ (forall gs f, In (ILazy gs) items -> In f gs -> ~ declares "k" f)
  /\ ~ In "k"%string (flat_map stored_names (map eager items))
  /\ fst (lazy_get HostLittle "D" None items "k" (lazy_new items [])) = Ok (VInt 3).
Proof.
  cbn zeta. split; [now left|]. split; [cbn; intuition congruence|].
  split; [|split; [cbn; intuition discriminate|reflexivity]].
  intros gs f [E|[E|[]]]; [discriminate|]. injection E as <-. intros [<-|[<-|[]]]; cbn; [discriminate|tauto].
Qed.

Example C64_nonvacuous :
  (forall n, In n (flat_map group_names demo_items) -> lookup [("z", VObj "In" [("a", VInt 1)]); ("y", VBytes [1]); ("x", VInt 5)] n <> None)
  /\ history_lazy HostLittle "D" None demo_items [Get "x"; ToBytes; Set_ "id" (VInt 1); Set_ "n" (VInt 2); ToBytes]
       (lazy_new demo_items [("z", VObj "In" [("a", VInt 1)]); ("y", VBytes [1]); ("x", VInt 5)])
     = [AValue (Ok (VInt 5)); ABytes (Err InstructError); ADone (Ok tt); ADone (Ok tt); ABytes (Ok [1; 0; 5; 1; 0; 0; 2; 0; 1; 0])]
  /\ Exists (declares "k") [FAnon (MBytePad 1 0); FConst "k" (MInt UBInt8Marshal) (VInt 3)]
  /\ assign_attr [FConst "k" (MInt UBInt8Marshal) (VInt 3)] [] "k" (VInt 4) = Err InstructError.
Proof.
  split; [intros n Hn; cbn in Hn; intuition (subst; discriminate)|]. split; [vm_compute; reflexivity|].
  split; [apply Exists_cons_tl, Exists_cons_hd; reflexivity|]. vm_compute. reflexivity.
Qed.

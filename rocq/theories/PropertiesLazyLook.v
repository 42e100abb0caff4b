(** Property C107: fields that look at lazy containers while they are read. *)
From Verif Require Import Base IntCodec BitStringIO Stream StreamSpec StreamProofs MinMax Marshal MarshalInd MarshalSpec
  FieldSpec SimFacts SizeSpec Lazy LazySpec LazyProofs LazyFacts LazyLook LazyLookFacts.
From Coq Require Import ZArith List Bool String Lia.
Import ListNotations.
Open Scope string_scope.
Open Scope list_scope.
Open Scope Z_scope.

(** C107.  The fields of a class may be optional ones whose predicate looks at the object, and strings and arrays whose
    length is an attribute of the object, as long as they look at no lazy container that comes after them.  Whatever the
    input, if the same class without laziness can be read from it, then the lazy one can, taking the same bytes, and from
    then on no program that uses the object can tell the two apart. *)
Theorem C107_lazy_is_eager : forall h cls fields s E s',
  (forall pre i post, fields = pre ++ i :: post -> look_ok h (flat_map container_names post) i) ->
  NoDup (flat_map item_names (map plain fields)) -> stream_ok s ->
  read h (MStruct cls None (map eager (map plain fields))) [] s = (Ok (VObj cls E), s') ->
  exists o, look_read h cls fields s = (Ok o, s')
    /\ forall us, history_lazy h cls None (map plain fields) us o = history_eager h cls None (map eager (map plain fields)) us E.
Proof. exact look_is_eager. Qed.
Print Assumptions C107_lazy_is_eager.

(** C107.  Broken data is found out when a field behind the container looks at it: then reading the object raises the error
    that the eager class raises. *)
Theorem C107_broken : forall h cls fs post s e s' q k m n d,
  Forall lazy_field_ok fs -> (exists size, lazy_size fs = Ok size /\ size <= maxsize) -> stream_ok s ->
  In q (flat_map stored_names fs) ->
  read h (MStruct cls None [FGroup fs]) [] s = (Err e, s') ->
  fst (look_read h cls (LItem (ILazy fs) :: LOptional n m (Look q k) d :: post) s) = Err e.
Proof. intros. eapply look_error; eauto. Qed.
Print Assumptions C107_broken.

(** C107.  A container at which no field behind it looks has not been decoded when reading is done. *)
Theorem C107_untouched : forall h cls pre fs post s o s',
  (forall i, In i (pre ++ LItem (ILazy fs) :: post) -> forall gs, plain i = ILazy gs -> item_ok h (ILazy gs)) ->
  Forall (item_looks_past (container_names (LItem (ILazy fs)))) post ->
  look_read h cls (pre ++ LItem (ILazy fs) :: post) s = (Ok o, s') ->
  is_instantiated (List.length pre) o = false.
Proof. exact container_untouched. Qed.
Print Assumptions C107_untouched.

(** C107.  A container at which a field behind it looks, before anything else or for its length, has been decoded then. *)
Theorem C107_decoded : forall h cls pre fs mid i post s o s', let fields := pre ++ LItem (ILazy fs) :: mid ++ i :: post in
  (forall j, In j fields -> forall gs, plain j = ILazy gs -> item_ok h (ILazy gs)) -> NoDup (flat_map item_names (map plain fields)) ->
  (match i with LOptional _ _ (Look q _) _ => In q (flat_map stored_names fs) | LCounted _ q _ _ => In q (flat_map stored_names fs) | _ => False end) ->
  look_read h cls fields s = (Ok o, s') -> is_instantiated (List.length pre) o = true.
Proof. exact container_decoded. Qed.
Print Assumptions C107_decoded.

(** A lazy header with flags and a count; an optional field that depends on the flags and then on the count; an array of
    that many numbers; a string whose length is the optional field, and a lazy trailer. *)
Definition ll_header : item := ILazy [FField "flags" (MInt UBInt8Marshal) VNone; FField "count" (MInt UBInt8Marshal) VNone].
Definition ll_trailer : item := ILazy [FField "crc" (MInt UBInt16Marshal) VNone].
Definition ll_predicate : look bool :=
  Look "flags" (fun v => if py_eq v (VInt 0) then Found (Ok false) else Look "count" (fun w => Found (Ok (negb (py_eq w (VInt 0)))))).
Definition ll_fields : list look_item :=
  [ LItem ll_header;
    LOptional "extra" (MInt UBInt8Marshal) ll_predicate (VInt 1);
    LCounted "list" "count" (CArray (MInt UBInt8Marshal)) VNone;
    LCounted "text" "extra" (CString (VBytes [0]) PRight) VNone;
    LItem ll_trailer ].
Definition ll_input : list Z := [4; 2; 3; 10; 11; 65; 66; 0; 1; 2; 99].

Lemma ll_ok : forall pre i post, ll_fields = pre ++ i :: post -> look_ok HostLittle (flat_map container_names post) i.
Proof.
  assert (L1 : item_ok HostLittle ll_header) by (split; [repeat constructor|]; exists 2; split; [reflexivity|unfold maxsize; lia]).
  assert (L2 : item_ok HostLittle ll_trailer) by (split; [repeat constructor|]; exists 2; split; [reflexivity|unfold maxsize; lia]).
  assert (I8 : input_only HostLittle (MInt UBInt8Marshal)) by (intros c c' s; reflexivity).
  intros pre i post F. unfold ll_fields in F.
  destruct pre as [|x1 pre]; [injection F as <- <-; exact L1|]. injection F as <- F.
  destruct pre as [|x2 pre]; [injection F as <- <-|].
  { split; [exact I8|]. cbn. constructor; [cbn; intuition discriminate|]. intros v. destruct (py_eq v (VInt 0)); [constructor|]. constructor; [cbn; intuition discriminate|]. intros w. constructor. }
  injection F as <- F. destruct pre as [|x3 pre]; [injection F as <- <-; split; [cbn; intuition discriminate|exact I8]|].
  injection F as <- F. destruct pre as [|x4 pre]; [injection F as <- <-; split; [cbn; intuition discriminate|exact Logic.I]|].
  injection F as <- F. destruct pre as [|x5 pre]; [injection F as <- <-; exact L2|]. injection F as <- F. now destruct pre.
Qed.
Example C107_nonvacuous :
  (forall pre i post, ll_fields = pre ++ i :: post -> look_ok HostLittle (flat_map container_names post) i)
  /\ NoDup (flat_map item_names (map plain ll_fields)) /\ stream_ok (stream_of ll_input)
  /\ (exists E s', read HostLittle (MStruct "D" None (map eager (map plain ll_fields))) [] (stream_of ll_input) = (Ok (VObj "D" E), s')
        /\ rest s' = [99]
        /\ history_eager HostLittle "D" None (map eager (map plain ll_fields)) [Get "extra"; Get "list"; Get "text"; Set_ "flags" (VInt 5); Get "crc"; ToBytes] E
           = [AValue (Ok (VInt 3)); AValue (Ok (VList [VInt 10; VInt 11])); AValue (Ok (VBytes [65; 66])); ADone (Ok tt); AValue (Ok (VInt 258)); ABytes (Ok [5; 2; 3; 10; 11; 65; 66; 1; 2])])
  /\ (exists o s', look_read HostLittle "D" ll_fields (stream_of ll_input) = (Ok o, s')
        /\ is_instantiated 0 o = true /\ is_instantiated 4 o = false)
  /\ (exists s', read HostLittle (MStruct "D" None [FGroup [FField "x" (MInt UBInt16Marshal) VNone]]) [] (stream_of [1]) = (Err (NotEnoughDataError 2 1), s')).
Proof.
  split; [exact ll_ok|]. split; [cbn; repeat constructor; cbn; intuition discriminate|]. split; [apply stream_of_ok|]. split; [|split].
  - eexists _, _. split; [vm_compute; reflexivity|]. split; vm_compute; reflexivity.
  - eexists _, _. split; [vm_compute; reflexivity|]. split; reflexivity.
  - eexists. vm_compute. reflexivity.
Qed.

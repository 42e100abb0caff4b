(** Property C116: an object with a lazy container that could not be decoded. *)
From Verif Require Import Base IntCodec Stream StreamSpec MinMax Marshal FieldSpec SizeSpec Lazy LazySpec LazyFailSpec LazyFailFacts.
From Coq Require Import ZArith List Bool String Lia.
Import ListNotations.
Open Scope string_scope.
Open Scope list_scope.
Open Scope Z_scope.

(** C116.  Expected and not true: an object whose data cannot be decoded keeps saying so.  Only the first use of the container
    raises the error of the data.  From then on the fields in front of the one that failed have the values of the input, the
    others raise KeyError, whichever use came first (the value of an assignment that raised is lost), and to_bytes fails as
    long as one of them has no value.  Once all of them were assigned, the object is an ordinary one. *)
Theorem C116_reported_again_refuted : forall h cls cctx fs c s e s' u,
  Forall lazy_field_ok fs -> (exists size, lazy_size fs = Ok size /\ size <= maxsize) -> NoDup (names_of fs) -> stream_ok s -> needs fs u ->
  read h (MStruct cls cctx [FGroup fs]) c s = (Err e, s') ->
  exists o s1 pre f post E s2, lazy_read h cls cctx [ILazy fs] c s = (Ok o, s1) /\ fs = pre ++ f :: post
    /\ read h (MStruct cls cctx [FGroup pre]) c s = (Ok (VObj cls E), s2) /\ fst (read h (MStruct cls cctx [FGroup (pre ++ [f])]) c s) = Err e
    /\ exists x o1, use_lazy h cls cctx [ILazy fs] u o = (x, o1) /\ raised e x
    /\ (forall n, In n (names_of pre) -> exists v, lookup E n = Some v /\ lazy_get h cls cctx [ILazy fs] n o1 = (Ok v, o1))
    /\ (forall n, In n (names_of (f :: post)) -> lazy_get h cls cctx [ILazy fs] n o1 = (Err KeyError, o1))
    /\ (forall n, In n (names_of (f :: post)) -> exists e', fst (lazy_to_bytes h cls cctx [ILazy fs] o1) = Err e')
    /\ (forall ws us, map fst ws = names_of (f :: post) ->
          history_lazy h cls cctx [ILazy fs] (assignments ws ++ us) o1
          = map (fun _ => ADone (Ok tt)) ws ++ history_eager h cls cctx [FGroup fs] us (assigned ws E)).
Proof. exact fails_once. Qed.
Print Assumptions C116_reported_again_refuted.

(** C116.  Whatever an access or assignment in one container does, also if it raises, the fields outside of this container read
    as they would have read without it: values and errors alike. *)
Theorem C116_other_fields : forall h cls cctx items fs u o n,
  Forall (item_ok h) items -> NoDup (flat_map item_names items) -> In (ILazy fs) items -> u <> ToBytes -> needs fs u -> ~ In n (names_of fs) ->
  fst (lazy_get h cls cctx items n (snd (use_lazy h cls cctx items u o))) = fst (lazy_get h cls cctx items n o).
Proof. exact others_same. Qed.
Print Assumptions C116_other_fields.

(** C116.  A field that can be read now can be read at any later time, with the same value, until it is assigned: whatever else is
    done with the object, and whichever of these uses raise. *)
Theorem C116_values_stay : forall h cls cctx items o n v us,
  Forall (item_ok h) items -> NoDup (flat_map item_names items) ->
  fst (lazy_get h cls cctx items n o) = Ok v -> (forall w, ~ In (Set_ n w) us) ->
  forall x, In (Get n, x) (combine us (history_lazy h cls cctx items us o)) -> x = AValue (Ok v).
Proof. exact value_stays. Qed.
Print Assumptions C116_values_stay.

(** C116.  Expected and not true: an input that is too short is rejected when the object is read.  A class of lazy containers reads
    any input, even an empty one, and takes what there is. *)
Theorem C116_short_input_refuted : forall h cls cctx c groups sizes s,
  Forall (Forall lazy_field_ok) groups -> Forall2 (fun fs n => lazy_size fs = Ok n /\ n <= maxsize) groups sizes -> stream_ok s ->
  exists o s', lazy_read h cls cctx (map ILazy groups) c s = (Ok o, s') /\ rest s' = skipn (Z.to_nat (fold_right Z.add 0 sizes)) (rest s).
Proof. exact short_input. Qed.
Print Assumptions C116_short_input_refuted.

(** A number of two bytes, padding, a number and a padded string; the input ends in the second number. *)
Definition cut_fields : list field :=
  [FField "x" (MInt UBInt16Marshal) VNone; FAnon (MBytePad 1 0); FField "y" (MInt UBInt16Marshal) VNone; FField "z" (MPadStr 2 (VBytes [0]) PRight) VNone].
Definition cut_input : list Z := [1; 2; 0; 3].
Example C116_nonvacuous :
  Forall lazy_field_ok cut_fields /\ lazy_size cut_fields = Ok 7 /\ NoDup (names_of cut_fields) /\ stream_ok (stream_of cut_input) /\ needs cut_fields (Set_ "z" (VBytes [66]))
  /\ (exists e s', read HostLittle (MStruct "C" None [FGroup cut_fields]) [] (stream_of cut_input) = (Err e, s'))
  /\ exists o s1, lazy_read HostLittle "C" None [ILazy cut_fields] [] (stream_of cut_input) = (Ok o, s1)
     /\ exists e1 e2, history_lazy HostLittle "C" None [ILazy cut_fields]
          [Set_ "z" (VBytes [66]); Get "x"; Get "y"; Get "z"; ToBytes; Set_ "y" (VInt 3); Set_ "z" (VBytes [65]); ToBytes; Get "y"] o
        = [ADone (Err e1); AValue (Ok (VInt 258)); AValue (Err KeyError); AValue (Err KeyError); ABytes (Err e2); ADone (Ok tt); ADone (Ok tt);
           ABytes (Ok [1; 2; 0; 0; 3; 65; 0]); AValue (Ok (VInt 3))] /\ e1 <> KeyError /\ e2 = KeyError.
Proof.
  split. { repeat constructor; cbn; unfold maxsize; lia. }
  split; [reflexivity|]. split. { repeat constructor; cbn; intuition discriminate. }
  split. { vm_compute. intuition discriminate. }
  split. { right. right. now left. }
  split. { eexists _, _. vm_compute. reflexivity. }
  eexists _, _. split; [vm_compute; reflexivity|]. eexists _, _. split; [vm_compute; reflexivity|]. split; [discriminate|reflexivity].
Qed.

(** Two containers around a field; the input ends in the second one. *)
Definition cut_items : list item := [ILazy [FField "a" (MInt UBInt8Marshal) VNone]; IField (FField "b" (MInt UBInt8Marshal) VNone); ILazy cut_fields].
Example C116_nonvacuous_others :
  Forall (item_ok HostLittle) cut_items /\ NoDup (flat_map item_names cut_items) /\ In (ILazy cut_fields) cut_items
  /\ exists o s1, lazy_read HostLittle "C" None cut_items [] (stream_of (7 :: 8 :: cut_input)) = (Ok o, s1)
     /\ exists e, history_lazy HostLittle "C" None cut_items [Get "z"; Get "a"; Get "b"; Get "z"] o
        = [AValue (Err e); AValue (Ok (VInt 7)); AValue (Ok (VInt 8)); AValue (Err KeyError)] /\ e <> KeyError.
Proof.
  split. { constructor; [|constructor; [|constructor; [|constructor]]].
    - split; [repeat constructor|]. exists 1. split; [reflexivity|unfold maxsize; lia].
    - intros c c' s. reflexivity.
    - split; [repeat constructor; cbn; unfold maxsize; lia|]. exists 7. split; [reflexivity|unfold maxsize; lia]. }
  split. { repeat constructor; cbn; intuition discriminate. }
  split; [right; right; now left|]. eexists _, _. split; [vm_compute; reflexivity|]. eexists. split; [vm_compute; reflexivity|discriminate].
Qed.
Example C116_nonvacuous_stay :
  exists o s1, lazy_read HostLittle "C" None cut_items [] (stream_of (7 :: 8 :: cut_input)) = (Ok o, s1)
     /\ fst (lazy_get HostLittle "C" None cut_items "a" o) = Ok (VInt 7)
     /\ exists e, history_lazy HostLittle "C" None cut_items [ToBytes; Get "a"; Set_ "b" (VInt 1); ToBytes; Get "a"] o
        = [ABytes (Err e); AValue (Ok (VInt 7)); ADone (Ok tt); ABytes (Err KeyError); AValue (Ok (VInt 7))].
Proof. eexists _, _. split; [vm_compute; reflexivity|]. split; [vm_compute; reflexivity|]. eexists. vm_compute. reflexivity. Qed.
Example C116_nonvacuous_short :
  Forall (Forall lazy_field_ok) [cut_fields; cut_fields] /\ Forall2 (fun fs n => lazy_size fs = Ok n /\ n <= maxsize) [cut_fields; cut_fields] [7; 7]
  /\ (exists o s', lazy_read HostLittle "C" None [ILazy cut_fields; ILazy cut_fields] [] (stream_of []) = (Ok o, s'))
  /\ exists e s', read HostLittle (MStruct "C" None [FGroup cut_fields; FGroup cut_fields]) [] (stream_of []) = (Err e, s').
Proof.
  split. { repeat constructor; cbn; unfold maxsize; lia. }
  split. { repeat constructor; unfold maxsize; lia. }
  split; eexists _, _; vm_compute; reflexivity.
Qed.

(** Property C102: what the error of a failed pack() or unpack() tells. *)
From Verif Require Import Base BaseProofs IntCodec Marshal Range RangeSpec IoBuffer IoSpec Serialize
  RefEngine RefSpec BufferModel BufferSpec BufferMacros BufferErrors BufferBuilders BufferExamples BufferReport ReportSpec ReportFacts.
From Coq Require Import ZArith List Bool String Lia.
Import ListNotations.
Open Scope string_scope.
Open Scope list_scope.
Open Scope Z_scope.

(** ** C102.  The InstructBufferError of pack() names the field at which packing stopped (all before it were packed or
    left out), is chained to what was raised there, lists every reference resolved by then with its value, sorted and
    none twice, and the references that led from the field to the one that raised. *)
Theorem C102_pack_error : forall safe show C o p, cls_ok C -> packers_ok C -> pack_raises safe show C o = Some (Reported p) ->
  (exists o', buffer_pack C o = (Err InstructBufferError, o'))
  /\ exists i f e known chain, pack_stops_at C o i f e known chain /\ tells safe show p (f_name f) e known chain.
Proof. intros safe show C o p Hok Hp H. pose proof (pack_raises_spec safe show C o Hok Hp) as S. rewrite H in S. exact S. Qed.
Print Assumptions C102_pack_error.

(** The same for unpack(). *)
Theorem C102_unpack_error : forall safe show C b o p, cls_ok C -> buf_ok b -> unpack_raises safe show C b o = Some (Reported p) ->
  (exists o', buffer_unpack C b o = (Err InstructBufferError, o'))
  /\ exists i f e known chain, unpack_stops_at C b o i f e known chain /\ tells safe show p (f_name f) e known chain.
Proof. intros safe show C b o p Hok Kb H. pose proof (unpack_raises_spec safe show C b o Hok Kb) as S. rewrite H in S. exact S. Qed.
Print Assumptions C102_unpack_error.

(** There is such an error whenever packing a field fails, if every value has a repr. *)
Theorem C102_always_reported : forall safe show C, cls_ok C -> (forall v, exists t, show v = Ok t) ->
  (forall o o', packers_ok C -> buffer_pack C o = (Err InstructBufferError, o') -> ~ pack_condition_raises C o InstructBufferError ->
     exists p, pack_raises safe show C o = Some (Reported p))
  /\ (forall b o o', buf_ok b -> buffer_unpack C b o = (Err InstructBufferError, o') -> ~ unpack_size_raises C b o InstructBufferError ->
     exists p, unpack_raises safe show C b o = Some (Reported p)).
Proof.
  intros safe show C Hok Hs.
  assert (U : forall known e, ~ unshown show known e).
  { intros known e (l & r & v & l2 & _ & _ & E). destruct (Hs v) as (t & T). congruence. }
  assert (I : ~ no_exception InstructBufferError) by (intros [H|H]; discriminate). split.
  - intros o o' Hp H N. pose proof (pack_raises_spec safe show C o Hok Hp) as S.
    destruct (pack_raises safe show C o) as [[p|e]|]; [eauto| |destruct S as (x & y & S); congruence].
    exfalso. destruct S as [((y & S) & K)|(_ & i & f & e' & known & chain & _ & K)]; [|exact (U _ _ K)].
    assert (E : e = InstructBufferError) by congruence. subst e. destruct K as [K|[K|(K & _)]]; [tauto|tauto|discriminate].
  - intros b o o' Kb H N. pose proof (unpack_raises_spec safe show C b o Hok Kb) as S.
    destruct (unpack_raises safe show C b o) as [[p|e]|]; [eauto| |destruct S as (x & y & S); congruence].
    exfalso. destruct S as [((y & S) & K)|(_ & i & f & e' & known & chain & _ & K)]; [|exact (U _ _ K)].
    assert (E : e = InstructBufferError) by congruence. subst e. destruct K as [K|K]; tauto.
Qed.
Print Assumptions C102_always_reported.

(** What else the caller may see.  Exceptions that are not wrapped: from a pack_if, from the check of the size, from the
    size after unpacking.  But also: if a field fails, and the repr of some value resolved by then raises, the caller gets
    that exception instead, and nothing about the field. *)
Theorem C102_other_errors : forall safe show C, cls_ok C ->
  (forall o e, packers_ok C -> pack_raises safe show C o = Some (Bare e) ->
     ((exists o', buffer_pack C o = (Err e, o'))
      /\ (no_exception e \/ pack_condition_raises C o e \/ (e = AssertionError /\ packed_too_long C o)))
     \/ ((exists o', buffer_pack C o = (Err InstructBufferError, o'))
         /\ exists i f e' known chain, pack_stops_at C o i f e' known chain /\ unshown show known e))
  /\ (forall b o e, buf_ok b -> unpack_raises safe show C b o = Some (Bare e) ->
     ((exists o', buffer_unpack C b o = (Err e, o')) /\ (no_exception e \/ unpack_size_raises C b o e))
     \/ ((exists o', buffer_unpack C b o = (Err InstructBufferError, o'))
         /\ exists i f e' known chain, unpack_stops_at C b o i f e' known chain /\ unshown show known e)).
Proof.
  intros safe show C Hok. split.
  - intros o e Hp H. pose proof (pack_raises_spec safe show C o Hok Hp) as S. rewrite H in S. exact S.
  - intros b o e Kb H. pose proof (unpack_raises_spec safe show C b o Hok Kb) as S. rewrite H in S. exact S.
Qed.
Print Assumptions C102_other_errors.

(** Nothing is raised exactly when pack() or unpack() succeeds. *)
Theorem C102_no_error : forall safe show C, cls_ok C ->
  (forall o, packers_ok C -> (pack_raises safe show C o = None <-> exists bytes o', buffer_pack C o = (Ok bytes, o')))
  /\ (forall b o, buf_ok b -> (unpack_raises safe show C b o = None <-> exists n o', buffer_unpack C b o = (Ok n, o'))).
Proof.
  intros safe show C Hok. split.
  - intros o Hp. pose proof (pack_raises_spec safe show C o Hok Hp) as S. split; [intros H; now rewrite H in S|].
    intros (x & y & H). destruct (pack_raises safe show C o) as [[p|e]|]; [| |reflexivity].
    + destruct S as ((z & S) & _). congruence.
    + destruct S as [((z & S) & _)|((z & S) & _)]; congruence.
  - intros b o Kb. pose proof (unpack_raises_spec safe show C b o Hok Kb) as S. split; [intros H; now rewrite H in S|].
    intros (x & y & H). destruct (unpack_raises safe show C b o) as [[p|e]|]; [| |reflexivity].
    + destruct S as ((z & S) & _). congruence.
    + destruct S as [((z & S) & _)|((z & S) & _)]; congruence.
Qed.
Print Assumptions C102_no_error.

Definition short_names (r : rid) : string :=
  match r_kind r, r_no r with
  | KPack, 0%nat => "pack0" | KPack, 1%nat => "pack1" | KPackPos, 0%nat => "pos0" | KPackPos, 1%nat => "pos1"
  | KPackValue, 0%nat => "value0" | KPackValue, 1%nat => "value1" | KPackLen, _ => "len"
  | KUnpack, 0%nat => "unpack0" | KUnpackValue, 0%nat => "get0" | KPart, 0%nat => "part0" | KUnpackPos, 0%nat => "upos0"
  | KUser, 0%nat => "True" | _, _ => "other"
  end.
Definition short_values (v : rv) : res string :=
  match v with RVal (VInt 258) => Ok "258" | RVal _ => Ok "True" | RBuf _ => Ok "bytes" | RRanges _ => Ok "ranges" | _ => Ok "else" end.
(** Numbers cannot be shown. *)
Definition no_numbers (v : rv) : res string := match v with RVal (VInt 258) => Err ZeroDivisionError | _ => short_values v end.

Definition pair_fields : list field :=
  [int_field HostLittle BBig false None (packet_kw "a" 1 1 None); int_field HostLittle BBig false None (packet_kw "b" 2 2 None)].
Definition pair_users : list uref := [UConst (rbool true); UByteSlice (num 1) (num 3); UByteSlice (num 2) (num 4)].
Definition pair_class : cls := mkCls pair_fields pair_users (Some 32).
Example C102_nonvacuous :
  cls_ok pair_class /\ packers_ok pair_class
  /\ pack_raises short_names short_values pair_class [("a", VInt 258); ("b", VInt 65536)]
     = Some (Reported (mkReport "b" StructError
         ["    len=True"; "    other=ranges"; "    pack0=bytes"; "    pos0=ranges"; "    pos1=ranges"; "    value0=258"; "    value1=True"]
         ["    pack1"]))
  /\ pack_raises short_names no_numbers pair_class [("a", VInt 258); ("b", VInt 65536)] = Some (Bare ZeroDivisionError)
  /\ unpack_raises short_names short_values pair_class (BArr [1; 2; 3]) []
     = Some (Reported (mkReport "b" AssertionError
         ["    get0=True"; "    other=True"; "    other=bytes"; "    other=ranges"; "    part0=bytes"; "    unpack0=else"; "    upos0=ranges"]
         ["    other"; "    other"; "    other"]))
  /\ unpack_raises short_names short_values pair_class (BArr [1; 2; 3; 4]) [] = None.
Proof.
  split; [class_ok|]. split; [apply predefined_packers; repeat constructor|]. repeat split; vm_compute; reflexivity.
Qed.

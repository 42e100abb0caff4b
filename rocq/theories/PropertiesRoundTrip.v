(** Properties C14-C16, C25 and C52: round trips, consumption, truncation, failed writes. *)
From Verif Require Import Base IntCodec CodecSpec Stream StreamSpec MinMax Marshal BitFieldSpec MarshalSpec
  MarshalInd WriteFacts SimSpec MarshalFacts PropertiesSizes.
From Coq Require Import ZArith List Bool String Lia.
Import ListNotations.
Open Scope string_scope.
Open Scope list_scope.
Open Scope Z_scope.

(** C14.  Every canonical value - of any marshal, however nested - is written and read back. *)
Theorem C14_roundtrip : forall h m c v, canon h true m c v ->
  exists enc, write_to_string h m v = Ok enc /\ create_from_string h m enc c = Ok v.
Proof. exact struct_roundtrip. Qed.
Print Assumptions C14_roundtrip.

(** C14.  For a struct with plain, differently named fields: construct an object from keyword
    arguments (fields not mentioned get their default), write it, read it back: the result is the
    same object, and each attribute has the value given to it.  [plain_fields] is the list of
    [Field(name, marshal, default)]; [kw_value] the keyword argument or else the default. *)
Theorem C14_keyword_object_roundtrip : forall h cls cctx c defs kwargs,
  NoDup (map def_name defs) ->
  (forall p, In p defs -> forall c, canon h true (snd (fst p)) c (kw_value kwargs p)) ->
  let m := MStruct cls cctx (plain_fields defs) in
  let obj := VObj cls (new_attrs (plain_fields defs) kwargs) in
  exists enc, write_to_string h m obj = Ok enc /\ create_from_string h m enc c = Ok obj
    /\ forall p, In p defs -> py_getattr obj (def_name p) = Ok (kw_value kwargs p).
Proof. exact keyword_object_roundtrip. Qed.
Print Assumptions C14_keyword_object_roundtrip.

Lemma ex_pair_canon c x y : 0 <= x <= 255 -> 0 <= y <= 65535 -> canon HostLittle true ex_pair c (ex_pair_val x y).
Proof.
  intros X Y. cbn. eexists. split; [reflexivity|].
  eexists. split; [split; [|reflexivity]|]. { exists x. split; [reflexivity|]. unfold int_representable. cbn. lia. }
  eexists. split; [split; [|reflexivity]|reflexivity]. exists y. split; [reflexivity|]. unfold int_representable. cbn. lia.
Qed.

Lemma ex_rec_canon c : canon HostLittle true ex_rec c ex_rec_val.
Proof.
  unfold ex_rec_val. cbn [canon ex_rec]. eexists. split; [reflexivity|].
  eexists. split. { cbn [canon_field]. split; [|split; reflexivity]. exists 513. split; [reflexivity|]. unfold int_representable. cbn. lia. }
  eexists. split. { cbn [canon_field]. split; [|reflexivity]. exists [104; 105].
    split; [reflexivity|]. split; [repeat constructor; cbn; lia|]. split; [unfold maxsize; cbn; lia|].
    split; [reflexivity|]. exists 2. split; [reflexivity|]. unfold int_representable. cbn. lia. }
  eexists. split. { cbn [canon_field]. split; [|reflexivity]. eexists. split; [reflexivity|].
    split; [repeat constructor; apply ex_pair_canon; lia|]. exists 2. split; [reflexivity|]. unfold int_representable. cbn. lia. }
  eexists. split. { cbn [canon_field]. split; [|reflexivity]. exists [65].
    split; [reflexivity|]. split; [repeat constructor; cbn; lia|]. split; [unfold maxsize; cbn; lia|].
    split; [reflexivity|]. right. split; [auto|]. exists 0, []. split; [reflexivity|]. split; lia. }
  eexists. split. { cbn [canon_field]. exists true. split; [reflexivity|]. split; [discriminate|]. split; [|reflexivity].
    exists 7. split; [reflexivity|]. unfold int_representable. cbn. lia. }
  eexists. split; [|reflexivity]. cbn [canon_field]. split; [|split].
  - split; [vm_compute; split; discriminate|]. split; [repeat constructor|].
    split; [repeat constructor; cbn; lia|].
    split; cbn; repeat constructor; cbn; try lia.
  - repeat constructor; cbn; try lia; eexists; reflexivity.
  - reflexivity.
Qed.

Example C14_nonvacuous :
  canon HostLittle true ex_rec [] ex_rec_val
  /\ create_from_string HostLittle ex_rec
       [2; 1; 2; 104; 105; 2; 1; 2; 0; 3; 4; 0; 65; 0; 0; 0; 0; 0; 0; 7; 149] [] = Ok ex_rec_val
  /\ NoDup (map def_name [("a", MInt UBInt8Marshal, VInt 3); ("b", MInt UBInt8Marshal, VInt 4)])
  /\ (forall p, In p [("a", MInt UBInt8Marshal, VInt 3); ("b", MInt UBInt8Marshal, VInt 4)] ->
      forall c, canon HostLittle true (snd (fst p)) c (kw_value [("b", VInt 200); ("z", VInt 0)] p))
  /\ write_to_string HostLittle
       (MStruct "S" None (plain_fields [("a", MInt UBInt8Marshal, VInt 3); ("b", MInt UBInt8Marshal, VInt 4)]))
       (VObj "S" (new_attrs (plain_fields [("a", MInt UBInt8Marshal, VInt 3); ("b", MInt UBInt8Marshal, VInt 4)])
                    [("b", VInt 200); ("z", VInt 0)])) = Ok [3; 200].
Proof.
  split; [apply ex_rec_canon|]. split; [vm_compute; reflexivity|]. split.
  { repeat constructor; cbn; intuition discriminate. }
  split; [|vm_compute; reflexivity].
  intros p [<-|[<-|[]]] c; cbn; eexists; (split; [reflexivity|]); unfold int_representable; cbn; lia.
Qed.

(** C15.  Wherever the encoding stands in a stream, reading it stops exactly behind it. *)
Theorem C15_exact_consumption : forall h m c v, canon h true m c v ->
  exists enc, (forall out, write h m v out = (Ok tt, out ++ enc))
    /\ forall pre tail, read h m c (SBytesIO (pre ++ enc ++ tail) (zlen pre))
         = (Ok v, SBytesIO (pre ++ enc ++ tail) (zlen pre + zlen enc)).
Proof. exact exact_consumption. Qed.
Print Assumptions C15_exact_consumption.

Example C15_nonvacuous :
  canon HostLittle true ex_rec [] ex_rec_val
  /\ read HostLittle ex_rec []
       (SBytesIO ([8; 8; 8] ++ [2; 1; 2; 104; 105; 2; 1; 2; 0; 3; 4; 0; 65; 0; 0; 0; 0; 0; 0; 7; 149] ++ [9; 9]) 3)
     = (Ok ex_rec_val,
        SBytesIO ([8; 8; 8] ++ [2; 1; 2; 104; 105; 2; 1; 2; 0; 3; 4; 0; 65; 0; 0; 0; 0; 0; 0; 7; 149] ++ [9; 9]) 24).
Proof. split; [apply ex_rec_canon|vm_compute; reflexivity]. Qed.

(** C16.  Every proper prefix of an encoding is rejected, for definitions that never skip bytes
    without looking ([portable ... true]). *)
Theorem C16_truncated_rejected : forall h m c v, canon h true m c v -> portable h true false m ->
  exists enc, (forall out, write h m v out = (Ok tt, out ++ enc))
    /\ (zlen enc <= maxsize ->
        forall p q, enc = p ++ q -> q <> [] -> exists e s, read h m c (stream_of p) = (Err e, s)).
Proof. exact truncated_rejected. Qed.
Print Assumptions C16_truncated_rejected.

(** C16.  The exception: byte padding is skipped without noticing that it is not there. *)
Theorem C16_short_padding_accepted : forall h size ch c d pos,
  0 <= size <= maxsize -> 0 <= pos <= zlen d -> zlen d - pos < size ->
  read h (MBytePad size ch) c (SBytesIO d pos) = (Ok VNone, SBytesIO d (zlen d)).
Proof. exact padding_short. Qed.
Print Assumptions C16_short_padding_accepted.

Lemma ex_rec_portable h : portable h true false ex_rec.
Proof.
  unfold ex_rec, ex_pair. cbn [portable portable_field].
  assert (N : never_negative h (MInt UBInt8Marshal)) by (apply unsigned_never_negative; reflexivity).
  repeat match goal with |- _ /\ _ => split | |- True => exact I end.
  - intros _. exact N.
  - lia.
  - intros obj c. constructor.
  - vm_compute. discriminate.
  - vm_compute. discriminate.
  - intros _. split; [repeat constructor; cbn; lia|vm_compute; reflexivity].
Qed.

Example C16_nonvacuous :
  canon HostLittle true ex_rec [] ex_rec_val /\ portable HostLittle true false ex_rec
  /\ fst (read HostLittle ex_rec []
       (stream_of [2; 1; 2; 104; 105; 2; 1; 2; 0; 3; 4; 0; 65; 0; 0; 0; 0; 0; 0; 7])) = Err IOError
  /\ fst (read HostLittle (MBytePad 4 0) [] (stream_of [1; 2])) = Ok VNone.
Proof.
  split; [apply ex_rec_canon|]. split; [apply ex_rec_portable|]. split; vm_compute; reflexivity.
Qed.

(** C52.  What follows the data does not matter: if reading succeeds on [d], it gives the same
    value and stops at the same place on [d] followed by anything. *)
Theorem C52_rest_is_ignored : forall h m c d pos v s', portable h true false m ->
  0 <= pos <= zlen d -> zlen d <= maxsize -> bytes_ok d ->
  read h m c (SBytesIO d pos) = (Ok v, s') ->
  exists pos', s' = SBytesIO d pos' /\ pos <= pos' <= zlen d
    /\ forall q, read h m c (SBytesIO (d ++ q) pos) = (Ok v, SBytesIO (d ++ q) pos').
Proof. exact read_ignores_rest. Qed.
Print Assumptions C52_rest_is_ignored.

Example C52_nonvacuous :
  portable HostLittle true false ex_rec
  /\ read HostLittle ex_rec []
       (SBytesIO [8; 2; 1; 2; 104; 105; 2; 1; 2; 0; 3; 4; 0; 65; 0; 0; 0; 0; 0; 0; 7; 149] 1)
     = (Ok ex_rec_val, SBytesIO [8; 2; 1; 2; 104; 105; 2; 1; 2; 0; 3; 4; 0; 65; 0; 0; 0; 0; 0; 0; 7; 149] 22).
Proof. split; [apply ex_rec_portable|vm_compute; reflexivity]. Qed.

(** C25.  Whatever happens during a write, the output before it is a prefix of the output after
    it; and what is appended does not depend on what was there. *)
Theorem C25_write_only_appends : forall h m v, exists r suf, forall out, write h m v out = (r, out ++ suf).
Proof. exact write_appends. Qed.
Print Assumptions C25_write_only_appends.

(** C25.  When the write of a struct fails, some field failed; the fields before it have been
    written completely, the fields after it not at all. *)
Theorem C25_failed_write_stops : forall h cls cctx fs a out e out',
  write h (MStruct cls cctx fs) (VObj cls a) out = (Err e, out') ->
  exists fs1 f fs2 mid, fs = fs1 ++ f :: fs2
    /\ write h (MStruct cls cctx fs1) (VObj cls a) out = (Ok tt, mid)
    /\ write_field h f a mid = (Err e, out').
Proof.
  intros h cls cctx fs a out e out'. rewrite write_struct, String.eqb_refl. intros E.
  destruct (write_fields_crash h a fs out e out' E) as (fs1 & f & fs2 & mid & H1 & H2 & H3).
  exists fs1, f, fs2, mid. split; [auto|]. split; [|auto].
  rewrite write_struct, String.eqb_refl. exact H2.
Qed.
Print Assumptions C25_failed_write_stops.

Example C25_nonvacuous :
  write HostLittle ex_pair (ex_pair_val 1 70000) [9] = (Err InstructError, [9; 1]).
Proof. vm_compute. reflexivity. Qed.

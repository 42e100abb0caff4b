(** Properties C17, C18, C20, C21: constant and optional fields, strings. *)
From Verif Require Import Base IntCodec CodecSpec Stream StreamSpec MinMax Marshal MarshalSpec MarshalInd
  WriteFacts FieldSpec FieldFacts.
From Coq Require Import ZArith List Bool String Lia.
Import ListNotations.
Open Scope string_scope.
Open Scope list_scope.
Open Scope Z_scope.

(** C17.  Whatever attributes an object has - even one with the name of the constant - the bytes
    of the constant follow those of the fields before it. *)
Theorem C17_constant_encoded : forall h cls cctx fs1 n m k fs2 a out mid out',
  write h (MStruct cls cctx fs1) (VObj cls a) out = (Ok tt, mid) ->
  write h (MStruct cls cctx (fs1 ++ FConst n m k :: fs2)) (VObj cls a) out = (Ok tt, out') ->
  exists suf, out' = mid ++ bytes_of h m k ++ suf.
Proof.
  intros h cls cctx fs1 n m k fs2 a out mid out'. rewrite !write_struct, String.eqb_refl.
  intros W1 W2.
  assert (G : forall fs1 fs2 out, write_fields h (fs1 ++ fs2) a out
            = match write_fields h fs1 a out with
              | (Ok _, mid) => write_fields h fs2 a mid
              | (Err e, mid) => (Err e, mid)
              end).
  { clear. induction fs1 as [|f fs1 IH]; intros fs2 out; [reflexivity|].
    cbn [app write_fields]. unfold sbind. destruct (write_field h f a out) as [[u|e] o]; auto. }
  rewrite G, W1 in W2. cbn [write_fields] in W2. unfold sbind in W2.
  rewrite const_write in W2.
  destruct (write h m k mid) as [[[]|e] mid'] eqn:E; [|discriminate].
  destruct (write_any_out _ _ _ _ _ _ E) as [-> _].
  assert (Wf : appends (write_fields h fs2 a)).
  { clear. induction fs2; cbn; [apply appends_sret|]. apply appends_bind; [apply (proj2 (write_appends_all h))|auto]. }
  destruct Wf as (r & suf & Wf). rewrite Wf in W2. injection W2 as _ <-. exists suf. now rewrite <- app_assoc.
Qed.
Print Assumptions C17_constant_encoded.

(** C17.  Reading a constant field: the value is decoded and compared; the object never changes. *)
Theorem C17_constant_checked : forall h cls cctx n m k c s a,
  read_field h cls cctx (FConst n m k) c (s, a)
  = match read h m (get_updated_context cctx (VObj cls a) c) s with
    | (Ok v, s') => (if py_eq v k then Ok tt else Err InstructError, (s', a))
    | (Err e, s') => (Err e, (s', a))
    end.
Proof. exact const_read. Qed.
Print Assumptions C17_constant_checked.

(** C17.  The encoding of any other value is rejected. *)
Theorem C17_other_value_rejected : forall h cls cctx n m k c a v s,
  canon h true m (get_updated_context cctx (VObj cls a) c) v -> py_eq v k = false ->
  exists enc, (forall out, write h m v out = (Ok tt, out ++ enc))
    /\ (stream_ok s -> has_tell s = true -> (exists tl, rest s = enc ++ tl) ->
        fst (read_field h cls cctx (FConst n m k) c (s, a)) = Err InstructError).
Proof. exact const_wrong_encoding. Qed.
Print Assumptions C17_other_value_rejected.

(** C17.  Assigning the constant changes nothing, assigning anything else raises InstructError;
    and the attribute has the value of the constant whatever keyword arguments were given. *)
Theorem C17_constant_assignment : forall fs a n m k v,
  NoDup (map fst (class_attrs fs)) -> In (FConst n m k) fs ->
  assign_attr fs a n v = if py_eq v k then Ok a else Err InstructError.
Proof. exact const_assign. Qed.
Print Assumptions C17_constant_assignment.
Theorem C17_constant_attribute : forall fs cls n m k kwargs,
  NoDup (map fst (class_attrs fs)) -> In (FConst n m k) fs -> ~ In n (flat_map stored_names fs) ->
  py_getattr (VObj cls (new_attrs fs kwargs)) n = Ok k.
Proof. exact const_attribute. Qed.
Print Assumptions C17_constant_attribute.

(** C17.  A constant that is itself a Struct object can be written but never be read. *)
Theorem C17_struct_constant_unreadable : forall h cls cctx n m cls' a' c st,
  fst (read_field h cls cctx (FConst n m (VObj cls' a')) c st) <> Ok tt.
Proof. exact const_struct_unreadable. Qed.
Print Assumptions C17_struct_constant_unreadable.

Definition ex_const : list field := [FConst "magic" (MInt UBInt16Marshal) (VInt 513); FField "x" (MInt UBInt8Marshal) VNone].
Example C17_nonvacuous :
  write HostLittle (MStruct "S" None ex_const) (VObj "S" [("magic", VInt 1); ("x", VInt 7)]) [] = (Ok tt, [2; 1; 7])
  /\ fst (read HostLittle (MStruct "S" None ex_const) [] (stream_of [2; 2; 7])) = Err InstructError
  /\ fst (read HostLittle (MStruct "S" None ex_const) [] (stream_of [2; 1; 7])) = Ok (VObj "S" [("magic", VInt 513); ("x", VInt 7)])
  /\ NoDup (map fst (class_attrs ex_const)) /\ In (FConst "magic" (MInt UBInt16Marshal) (VInt 513)) ex_const
  /\ ~ In "magic" (flat_map stored_names ex_const)
  /\ canon HostLittle true (MInt UBInt16Marshal) [] (VInt 514) /\ py_eq (VInt 514) (VInt 513) = false.
Proof.
  split; [vm_compute; reflexivity|]. split; [vm_compute; reflexivity|]. split; [vm_compute; reflexivity|].
  split; [repeat constructor; cbn; tauto|]. split; [left; reflexivity|].
  split; [cbn; intuition discriminate|]. split; [|reflexivity].
  exists 514. split; [reflexivity|]. unfold int_representable. cbn. lia.
Qed.

(** C18.  An absent optional field writes nothing, a present one what its marshal writes. *)
Theorem C18_optional_write : forall h n m pred d a out,
  write_field h (FOpt n m pred d) a out
  = match field_value n d a with VNone => (Ok tt, out) | v => write h m v out end.
Proof. exact optional_write. Qed.
Print Assumptions C18_optional_write.

(** C18.  Reading: with a false predicate neither the stream nor the object changes, with a true
    one the field is read as a plain field. *)
Theorem C18_optional_read : forall h cls cctx n m pred d c s a b,
  pred (VObj cls a) (get_updated_context cctx (VObj cls a) c) = RRet (Ok b) ->
  read_field h cls cctx (FOpt n m pred d) c (s, a)
  = if b then read_field h cls cctx (FField n m d) c (s, a) else (Ok tt, (s, a)).
Proof. exact optional_read_pure. Qed.
Print Assumptions C18_optional_read.

(** C18.  The same for predicates that read from the stream themselves. *)
Theorem C18_optional_read_any : forall h cls cctx n m pred d c s a,
  read_field h cls cctx (FOpt n m pred d) c (s, a)
  = match run_rprog (pred (VObj cls a) (get_updated_context cctx (VObj cls a) c)) s with
    | (Ok true, s1) => read_field h cls cctx (FField n m d) c (s1, a)
    | (Ok false, s1) => (Ok tt, (s1, a))
    | (Err e, s1) => (Err e, (s1, a))
    end.
Proof. exact optional_read_any. Qed.
Print Assumptions C18_optional_read_any.

Definition ex_opt : field :=
  FOpt "o" (MInt UBInt8Marshal)
    (fun obj _ => RRet (match py_getattr obj "f" with Ok v => Ok (py_eq v (VInt 1)) | Err e => Err e end)) VNone.
Example C18_nonvacuous :
  write_field HostLittle ex_opt [("f", VInt 0)] [5] = (Ok tt, [5])
  /\ write_field HostLittle ex_opt [("f", VInt 0); ("o", VInt 8)] [5] = (Ok tt, [5; 8])
  /\ read_field HostLittle "S" None ex_opt [] (stream_of [8; 9], [("f", VInt 1)])
     = (Ok tt, (SBytesIO [8; 9] 1, [("f", VInt 1); ("o", VInt 8)]))
  /\ read_field HostLittle "S" None ex_opt [] (stream_of [8; 9], [("f", VInt 0)])
     = (Ok tt, (SBytesIO [8; 9] 0, [("f", VInt 0)])).
Proof. vm_compute. auto. Qed.

(** C20.  A padded string is stripped (see [trims]), written, and padded on the right to exactly
    its size. *)
Theorem C20_padded_write : forall h size p0 ps d b core out,
  trims (trims_left d) (trims_right d) (p0 :: ps) b core -> zlen core <= size ->
  write h (MPadStr size (VBytes (p0 :: ps)) d) (VBytes b) out
  = (Ok tt, out ++ core ++ repeat p0 (Z.to_nat (size - zlen core))).
Proof. exact padded_write. Qed.
Print Assumptions C20_padded_write.

(** C20.  With right or two-sided padding the stripped value comes back, from exactly [size] bytes. *)
Theorem C20_padded_roundtrip : forall h size p0 ps d b core, d = PRight \/ d = PBoth ->
  trims (trims_left d) (trims_right d) (p0 :: ps) b core -> zlen core <= size <= maxsize ->
  exists enc, zlen enc = size
    /\ (forall out, write h (MPadStr size (VBytes (p0 :: ps)) d) (VBytes b) out = (Ok tt, out ++ enc))
    /\ forall c pre tail,
         read h (MPadStr size (VBytes (p0 :: ps)) d) c (SBytesIO (pre ++ enc ++ tail) (zlen pre))
         = (Ok (VBytes core), SBytesIO (pre ++ enc ++ tail) (zlen pre + size)).
Proof. exact padded_roundtrip. Qed.
Print Assumptions C20_padded_roundtrip.

(** C20.  Every byte string has exactly one stripped form. *)
Theorem C20_stripping_defined : forall d set b,
  trims (trims_left d) (trims_right d) set b (strip_bytes d set b)
  /\ forall core, trims (trims_left d) (trims_right d) set b core -> core = strip_bytes d set b.
Proof. intros. split; [apply strip_trims|]. intros core T. symmetry. now apply trims_strip. Qed.
Print Assumptions C20_stripping_defined.

(** C20.  Left padding does not round-trip: the padding is added on the right, where reading does
    not remove it. *)
Theorem C20_left_padding : forall h size p0 ps b core,
  trims true false (p0 :: ps) b core -> zlen core <= size <= maxsize ->
  (forall out, write h (MPadStr size (VBytes (p0 :: ps)) PLeft) (VBytes b) out
               = (Ok tt, out ++ core ++ repeat p0 (Z.to_nat (size - zlen core))))
  /\ forall c, read h (MPadStr size (VBytes (p0 :: ps)) PLeft) c
                 (stream_of (core ++ repeat p0 (Z.to_nat (size - zlen core))))
     = (Ok (VBytes (match core with [] => [] | _ => core ++ repeat p0 (Z.to_nat (size - zlen core)) end)),
        SBytesIO (core ++ repeat p0 (Z.to_nat (size - zlen core))) size).
Proof. exact padded_left. Qed.
Print Assumptions C20_left_padding.

(** C20.  Longer values are written in full; reading stops after [size] bytes, in the middle of
    the value. *)
Theorem C20_overlong : forall h size p d b core, d <> PNone ->
  trims (trims_left d) (trims_right d) p b core -> 0 <= size < zlen core -> size <= maxsize ->
  (forall out, write h (MPadStr size (VBytes p) d) (VBytes b) out = (Ok tt, out ++ core))
  /\ forall c pre tail,
       read h (MPadStr size (VBytes p) d) c (SBytesIO (pre ++ core ++ tail) (zlen pre))
       = (Ok (VBytes (strip_bytes d p (firstn (Z.to_nat size) core))),
          SBytesIO (pre ++ core ++ tail) (zlen pre + size)).
Proof. exact padded_overlong. Qed.
Print Assumptions C20_overlong.

(** C20.  Fixed-size buffers: values of the right length round-trip; shorter ones raise
    IndexError after they have been written. *)
Theorem C20_fixed_buffer : forall h size b, bytes_ok b -> zlen b = size -> size <= maxsize ->
  forall c, roundtrips h (MPadStr size (VBytes []) PNone) c (VBytes b) b.
Proof. exact fixed_buffer_exact. Qed.
Print Assumptions C20_fixed_buffer.
Theorem C20_fixed_buffer_short : forall h size b out, zlen b < size ->
  write h (MPadStr size (VBytes []) PNone) (VBytes b) out = (Err IndexError, out ++ b).
Proof. exact fixed_buffer_short. Qed.
Print Assumptions C20_fixed_buffer_short.

Example C20_nonvacuous :
  trims true true [32; 0] [32; 0; 65; 32; 66; 0] [65; 32; 66]
  /\ write HostLittle (MPadStr 5 (VBytes [32; 0]) PBoth) (VBytes [32; 0; 65; 32; 66; 0]) [] = (Ok tt, [65; 32; 66; 32; 32])
  /\ read HostLittle (MPadStr 5 (VBytes [32; 0]) PBoth) [] (stream_of [65; 32; 66; 32; 32])
     = (Ok (VBytes [65; 32; 66]), SBytesIO [65; 32; 66; 32; 32] 5)
  /\ trims true false [0] [0; 65] [65]
  /\ fst (read HostLittle (MPadStr 3 (VBytes [0]) PLeft) [] (stream_of [65; 0; 0])) = Ok (VBytes [65; 0; 0])
  /\ write HostLittle (MPadStr 3 (VBytes []) PNone) (VBytes [1]) [] = (Err IndexError, [1]).
Proof.
  split. { exists [32; 0], [0]. split; [reflexivity|]. split; [repeat constructor; cbn; tauto|].
    split; [repeat constructor; cbn; tauto|]. split.
    - intros x t E. injection E as <- <-. cbn. intuition discriminate.
    - intros x t E. change [65; 32; 66] with ([65; 32] ++ [66]) in E. apply app_inj_tail in E as [_ <-]. cbn. intuition discriminate. }
  split; [vm_compute; reflexivity|]. split; [vm_compute; reflexivity|].
  split. { exists [0], []. split; [reflexivity|]. split; [repeat constructor; cbn; tauto|]. split; [constructor|].
    split; [|reflexivity]. intros x t E. injection E as <- <-. cbn. intuition discriminate. }
  split; vm_compute; reflexivity.
Qed.

(** C21.  A length-prefixed string: the length of the stripped value, then the stripped value;
    this comes back, from wherever it stands. *)
Theorem C21_length_prefixed : forall h sz p d b core encn c,
  trims (trims_left d) (trims_right d) p b core -> zlen core <= maxsize ->
  roundtrips h sz c (VInt (zlen core)) encn ->
  (forall out, write h (MVarStr sz (VBytes p) d) (VBytes b) out = (Ok tt, out ++ encn ++ core))
  /\ forall pre tail,
       read h (MVarStr sz (VBytes p) d) c (SBytesIO (pre ++ (encn ++ core) ++ tail) (zlen pre))
       = (Ok (VBytes core), SBytesIO (pre ++ (encn ++ core) ++ tail) (zlen pre + zlen (encn ++ core))).
Proof. exact varstr_roundtrip. Qed.
Print Assumptions C21_length_prefixed.

(** C21.  Integer prefixes meet the hypothesis above for every length they can represent... *)
Theorem C21_integer_prefix : forall h f z, int_representable f z ->
  exists enc, zlen enc = width_in_bytes (f_size f) /\ forall c, roundtrips h (MInt f) c (VInt z) enc.
Proof. exact int_enc. Qed.
Print Assumptions C21_integer_prefix.
(** ... and for longer strings nothing is written. *)
Theorem C21_too_long : forall h f p d b core out,
  trims (trims_left d) (trims_right d) p b core -> ~ int_representable f (zlen core) ->
  write h (MVarStr (MInt f) (VBytes p) d) (VBytes b) out = (Err InstructError, out).
Proof. exact varstr_too_long. Qed.
Print Assumptions C21_too_long.

(** C21.  A stream that ends early is rejected. *)
Theorem C21_short_stream : forall h sz p d c n encn pre got,
  roundtrips h sz c (VInt n) encn -> zlen got < n <= maxsize ->
  fst (read h (MVarStr sz p d) c (SBytesIO (pre ++ encn ++ got) (zlen pre))) = Err InstructError.
Proof. exact varstr_short. Qed.
Print Assumptions C21_short_stream.

(** C21.  With a str as padding - the default of the VarSizeString macro - nothing can be written
    or read. *)
Theorem C21_str_padding_unusable : forall h sz s d, d <> PNone ->
  (forall b out out', write h (MVarStr sz (VStr s) d) (VBytes b) out <> (Ok tt, out'))
  /\ (forall c st v st', read h (MVarStr sz (VStr s) d) c st <> (Ok v, st')).
Proof. intros h sz s d N. split; intros; [now apply varstr_str_padding|now apply varstr_str_padding_read]. Qed.
Print Assumptions C21_str_padding_unusable.

Example C21_nonvacuous :
  trims false true [0] [65; 66; 0] [65; 66]
  /\ int_representable UBInt8Marshal 2
  /\ write HostLittle (MVarStr (MInt UBInt8Marshal) (VBytes [0]) PRight) (VBytes [65; 66; 0]) [] = (Ok tt, [2; 65; 66])
  /\ fst (read HostLittle (MVarStr (MInt UBInt8Marshal) (VBytes [0]) PRight) [] (stream_of [3; 65; 66])) = Err InstructError
  /\ fst (read HostLittle (MVarStr (MInt UBInt8Marshal) (VStr [0]) PRight) [] (stream_of [2; 65; 66])) = Err TypeError.
Proof.
  split. { exists [], [0]. split; [reflexivity|]. split; [constructor|]. split; [repeat constructor; cbn; tauto|].
    split; [reflexivity|]. intros x t E. change [65; 66] with ([65] ++ [66]) in E. apply app_inj_tail in E as [_ <-]. cbn. intuition discriminate. }
  split; [unfold int_representable; cbn; lia|]. vm_compute. auto.
Qed.

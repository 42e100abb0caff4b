(** Properties C01-C04 and C51: numeric marshals. *)
From Verif Require Import Base IntCodec CodecSpec Stream Marshal NumericFacts.
From Coq Require Import ZArith List Lia.
Import ListNotations.
Open Scope Z_scope.

(** C01.  Every representable integer is written as exactly the width of the format, appended to
    the output, and read back from anywhere in a stream, which is left just after these bytes. *)
Theorem C01_integer_roundtrip : forall h f z, int_representable f z ->
  exists b,
    zlen b = width_in_bytes (f_size f)
    /\ (forall out, write h (MInt f) (VInt z) out = (Ok tt, out ++ b))
    /\ (forall c pre tail,
          read h (MInt f) c (SBytesIO (pre ++ b ++ tail) (zlen pre))
          = (Ok (VInt z), SBytesIO (pre ++ b ++ tail) (zlen pre + zlen b))).
Proof. exact int_roundtrip. Qed.
Print Assumptions C01_integer_roundtrip.

Example C01_nonvacuous :
  int_representable SLInt16Marshal (-2) /\ int_representable UBInt64Marshal (2 ^ 64 - 1)
  /\ write HostBig (MInt SLInt16Marshal) (VInt (-2)) [7] = (Ok tt, [7; 254; 255])
  /\ read HostBig (MInt SLInt16Marshal) [] (SBytesIO [7; 254; 255; 9] 1)
     = (Ok (VInt (-2)), SBytesIO [7; 254; 255; 9] 3).
Proof. repeat split; vm_compute; congruence. Qed.

(** C02.  Byte [i] of the encoding is the base-256 digit of weight [width-1-i] respectively [i]. *)
Theorem C02_integer_bytes : forall h f z out out' i,
  write h (MInt f) (VInt z) out = (Ok tt, out') ->
  0 <= i < width_in_bytes (f_size f) ->
  (most_significant_first h (f_endian f) ->
     nth (Z.to_nat (zlen out + i)) out' 0 = (z / 256 ^ (width_in_bytes (f_size f) - 1 - i)) mod 256)
  /\ (~ most_significant_first h (f_endian f) ->
     nth (Z.to_nat (zlen out + i)) out' 0 = (z / 256 ^ i) mod 256).
Proof. exact int_digits. Qed.
Print Assumptions C02_integer_bytes.

Example C02_nonvacuous :
  write HostBig (MInt UNInt32Marshal) (VInt 258) [] = (Ok tt, [0; 0; 1; 2])
  /\ write HostLittle (MInt UNInt32Marshal) (VInt 258) [] = (Ok tt, [2; 1; 0; 0])
  /\ most_significant_first HostBig (f_endian UNInt32Marshal)
  /\ ~ most_significant_first HostLittle (f_endian UNInt32Marshal).
Proof.
  repeat split; try (vm_compute; reflexivity).
  - right; auto.
  - intros [H|[_ H]]; discriminate.
Qed.

(** C03.  The representable integers are exactly those accepted; the others raise InstructError
    and leave the output as it was. *)
Theorem C03_out_of_range_rejected : forall h f z out, ~ int_representable f z ->
  write h (MInt f) (VInt z) out = (Err InstructError, out).
Proof. exact int_reject. Qed.
Print Assumptions C03_out_of_range_rejected.

Theorem C03_in_range_accepted : forall h f z out, int_representable f z ->
  exists b, write h (MInt f) (VInt z) out = (Ok tt, out ++ b).
Proof. exact int_accept. Qed.
Print Assumptions C03_in_range_accepted.

Example C03_nonvacuous :
  ~ int_representable SBInt8Marshal 128 /\ int_representable SBInt8Marshal (-128)
  /\ ~ int_representable UBInt8Marshal (-1) /\ int_representable UBInt8Marshal 255.
Proof. unfold int_representable; cbn; lia. Qed.

(** C04.  Decoding accepts every byte string of the right length, gives a representable value and
    is inverted by encoding; fewer bytes raise NotEnoughDataError. *)
Theorem C04_integer_decoding_total : forall h f c pre b tail,
  bytes_ok b -> zlen b = width_in_bytes (f_size f) ->
  exists z, read h (MInt f) c (SBytesIO (pre ++ b ++ tail) (zlen pre))
            = (Ok (VInt z), SBytesIO (pre ++ b ++ tail) (zlen pre + zlen b))
    /\ int_representable f z
    /\ forall out, write h (MInt f) (VInt z) out = (Ok tt, out ++ b).
Proof. exact int_decode_total. Qed.
Print Assumptions C04_integer_decoding_total.

Theorem C04_short_input_rejected : forall h f c pre b,
  zlen b < width_in_bytes (f_size f) ->
  read h (MInt f) c (SBytesIO (pre ++ b) (zlen pre))
  = (Err (NotEnoughDataError (width_in_bytes (f_size f)) (zlen b)),
     SBytesIO (pre ++ b) (zlen pre + zlen b)).
Proof. exact int_decode_short. Qed.
Print Assumptions C04_short_input_rejected.

Example C04_nonvacuous :
  bytes_ok [255; 128] /\ zlen [255; 128] = width_in_bytes (f_size SBInt16Marshal)
  /\ zlen [255] < width_in_bytes (f_size SBInt16Marshal)
  /\ read HostLittle (MInt SBInt16Marshal) [] (SBytesIO [255; 128] 0)
     = (Ok (VInt (-128)), SBytesIO [255; 128] 2).
Proof. repeat split; try (vm_compute; reflexivity). repeat constructor; unfold is_byte; lia. Qed.

(** C51.  Floats: every double survives a 64-bit field, every widened single a 32-bit field; and
    every byte string of the right length decodes to such a float. *)
Theorem C51_float_roundtrip : forall h f p, float_representable f p ->
  exists b,
    zlen b = match ff_size f with F32 => 4 | F64 => 8 end
    /\ (forall out, write h (MFloat f) (VFloat p) out = (Ok tt, out ++ b))
    /\ (forall c pre tail,
          read h (MFloat f) c (SBytesIO (pre ++ b ++ tail) (zlen pre))
          = (Ok (VFloat p), SBytesIO (pre ++ b ++ tail) (zlen pre + zlen b))).
Proof. exact float_roundtrip. Qed.
Print Assumptions C51_float_roundtrip.

Theorem C51_float_decoding_total : forall h f c pre b tail,
  bytes_ok b -> zlen b = match ff_size f with F32 => 4 | F64 => 8 end ->
  exists p, read h (MFloat f) c (SBytesIO (pre ++ b ++ tail) (zlen pre))
            = (Ok (VFloat p), SBytesIO (pre ++ b ++ tail) (zlen pre + zlen b))
    /\ float_representable f p.
Proof. exact float_decode_total. Qed.
Print Assumptions C51_float_decoding_total.

(** 1.5 is 0x3FF8000000000000, as a single 0x3FC00000. *)
Example C51_nonvacuous :
  float_representable (mkFFmt EBig F32) (1023 * 2 ^ 52 + 2 ^ 51)
  /\ write HostLittle (MFloat (mkFFmt EBig F32)) (VFloat (1023 * 2 ^ 52 + 2 ^ 51)) []
     = (Ok tt, [63; 192; 0; 0]).
Proof.
  split.
  - exists (127 * 2 ^ 23 + 2 ^ 22). split; [lia|]. vm_compute. reflexivity.
  - vm_compute. reflexivity.
Qed.

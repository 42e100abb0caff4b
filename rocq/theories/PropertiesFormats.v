(** Properties C02 and C51 for the exported types by name, and C65. *)
From Verif Require Import Base IntCodec CodecSpec Stream Marshal FloatSpec Formats FormatSpec FormatFacts.
From Coq Require Import ZArith List Bool String Lia.
Import ListNotations.
Open Scope string_scope.
Open Scope Z_scope.

(** C02, C03.  Every exported integer type is what its name says: it takes exactly the integers that
    fit, and writes their bytes in the named order. *)
Theorem C02_named_integer_types : forall n f, In (n, f) integer_types ->
  exists signed o bits, integer_name n = Some (signed, o, bits)
  /\ forall h z out,
     (fits signed bits z -> exists b, write h (MInt f) (VInt z) out = (Ok tt, (out ++ b)%list)
        /\ 8 * zlen b = bits
        /\ forall i, 0 <= i < zlen b -> nth (Z.to_nat i) b 0 = byte_at (high_first (big_host h) o) bits z i)
     /\ (~ fits signed bits z -> write h (MInt f) (VInt z) out = (Err InstructError, out)).
Proof. exact integer_type. Qed.
Print Assumptions C02_named_integer_types.

(** C65.  A finite float stored in a field of an exported 32-bit float type: it is read back as the
    nearest float that the type can represent (of two equally near ones, the one whose last bit is
    zero), with the same sign; if it is at least as large as the middle between the largest such
    float and the next power of two, OverflowError is raised and nothing is written.  C51: types of 64 bits
    store the bit pattern itself in the named byte order. *)
Theorem C65_named_float_types : forall n f, In (n, f) float_types ->
  exists o bits, float_name n = Some (o, bits)
  /\ (bits = 32 -> forall h p, finite p ->
      (Z.abs (float_value p) >= float_one * (2 ^ 128 - 2 ^ 103)
       /\ forall out, write h (MFloat f) (VFloat p) out = (Err OverflowError, out))
      \/ exists b p', zlen b = 4
       /\ (forall out, write h (MFloat f) (VFloat p) out = (Ok tt, (out ++ b)%list))
       /\ (forall c pre tail, read h (MFloat f) c (SBytesIO (pre ++ b ++ tail) (zlen pre))
                              = (Ok (VFloat p'), SBytesIO (pre ++ b ++ tail) (zlen pre + 4)))
       /\ Z.abs (float_value p) < float_one * (2 ^ 128 - 2 ^ 103)
       /\ finite p' /\ p' / 2 ^ 63 = p / 2 ^ 63
       /\ forall x, float_representable f x -> finite x ->
            Z.abs (float_value p' - float_value p) <= Z.abs (float_value x - float_value p)
            /\ (Z.abs (float_value p' - float_value p) = Z.abs (float_value x - float_value p) ->
                float_value x <> float_value p' ->
                Z.even (low_byte (high_first (big_host h) o) b) = true))
  /\ (bits = 64 -> forall h p out, 0 <= p < 2 ^ 64 ->
      exists b, write h (MFloat f) (VFloat p) out = (Ok tt, (out ++ b)%list)
      /\ zlen b = 8 /\ forall i, 0 <= i < zlen b -> nth (Z.to_nat i) b 0 = byte_at (high_first (big_host h) o) 64 p i).
Proof. exact float_type. Qed.
Print Assumptions C65_named_float_types.

(** 0.1 is not representable in 32 bits and comes back as 0.10000000149011612; 1 + 2^-24 lies in the
    middle between 1 and 1 + 2^-23; 2^128 is too large. *)
Example C65_nonvacuous :
  In ("BFloat32", BFloat32Marshal) float_types /\ finite 0x3FB999999999999A
  /\ write HostLittle (MFloat BFloat32Marshal) (VFloat 0x3FB999999999999A) [] = (Ok tt, [0x3D; 0xCC; 0xCC; 0xCD])
  /\ fst (read HostLittle (MFloat BFloat32Marshal) [] (SBytesIO [0x3D; 0xCC; 0xCC; 0xCD] 0)) = Ok (VFloat 0x3FB99999A0000000)
  /\ finite 0x3FF0000010000000
  /\ write HostLittle (MFloat LFloat32Marshal) (VFloat 0x3FF0000010000000) [] = (Ok tt, [0; 0; 0x80; 0x3F])
  /\ finite 0x47F0000000000000
  /\ write HostLittle (MFloat BFloat32Marshal) (VFloat 0x47F0000000000000) [7] = (Err OverflowError, [7])
  /\ write HostLittle (MInt SLInt16Marshal) (VInt (-2)) [] = (Ok tt, [0xFE; 0xFF])
  /\ write HostBig (MInt UNInt16Marshal) (VInt 258) [] = (Ok tt, [1; 2]).
Proof. unfold finite, exponent_field. repeat split; try (vm_compute; congruence); try (vm_compute; reflexivity). now left. Qed.

(** Property C76: integers in float fields. *)
From Verif Require Import Base IntCodec CodecSpec Stream Marshal FloatSpec Formats FormatSpec Range IoBuffer Serialize IntFloatFacts.
From Coq Require Import ZArith List Bool String Lia.
Import ListNotations.
Open Scope Z_scope.

(** The double nearest to an integer: of two equally near ones, the one whose last bit is zero. *)
Definition nearest_double (z p : Z) : Prop :=
  finite p /\ p / 2 ^ 63 = (if z <? 0 then 1 else 0)
  /\ forall x, finite x ->
       Z.abs (float_value p - z * float_one) <= Z.abs (float_value x - z * float_one)
       /\ (Z.abs (float_value p - z * float_one) = Z.abs (float_value x - z * float_one) ->
           float_value x <> float_value p -> Z.even p = true).

(** C76.  An integer stored in a field of any float type is stored as the nearest double would be
    (C51 and C65 say how); from the middle between the largest double and 2^1024 on, InstructError is raised
    and nothing is written. *)
Theorem C76_int_as_double : forall h f z,
  (2 ^ 1024 - 2 ^ 970 <= Z.abs z /\ forall out, write h (MFloat f) (VInt z) out = (Err InstructError, out))
  \/ (Z.abs z < 2 ^ 1024 - 2 ^ 970 /\ exists p, nearest_double z p
      /\ forall out, write h (MFloat f) (VInt z) out = write h (MFloat f) (VFloat p) out).
Proof.
  intros h f z. destruct (write_int h f z) as [H|(p & A & B & C & D & E)]; [now left|].
  right. split; [exact A|]. exists p. split; [repeat split; try apply B; try exact C; now apply D|exact E].
Qed.
Print Assumptions C76_int_as_double.

(** Small integers - up to 2^53 for 64-bit types, 2^24 for 32-bit ones - are read back exactly. *)
Theorem C76_small_ints_exact : forall h f z,
  Z.abs z <= 2 ^ (match ff_size f with F32 => 24 | F64 => 53 end) ->
  exists b p, zlen b = fsize_bytes (ff_size f)
    /\ (forall out, write h (MFloat f) (VInt z) out = (Ok tt, (out ++ b)%list))
    /\ (forall c pre tail, read h (MFloat f) c (SBytesIO (pre ++ b ++ tail)%list (zlen pre))
                           = (Ok (VFloat p), SBytesIO (pre ++ b ++ tail)%list (zlen pre + fsize_bytes (ff_size f))))
    /\ finite p /\ float_value p = z * float_one.
Proof. exact int_exact. Qed.
Print Assumptions C76_small_ints_exact.

(** In a 32-bit field the stored float need not be the nearest one the field could hold: the integer
    is rounded twice. *)
Theorem C76_nearest_single_refuted :
  exists z b p x, write HostLittle (MFloat LFloat32Marshal) (VInt z) [] = (Ok tt, b)
    /\ fst (read HostLittle (MFloat LFloat32Marshal) [] (SBytesIO b 0)) = Ok (VFloat p)
    /\ float_representable LFloat32Marshal x /\ finite x
    /\ Z.abs (float_value x - z * float_one) < Z.abs (float_value p - z * float_one).
Proof.
  exists (2 ^ 60 + 2 ^ 36 + 1), [0; 0; 128; 93], (1083 * 2 ^ 52), (single_to_double 0x5D800001).
  split; [vm_compute; reflexivity|]. split; [vm_compute; reflexivity|]. split; [exists 0x5D800001; split; [lia|reflexivity]|].
  split; [split; [vm_compute; split; congruence|discriminate]|]. vm_compute. reflexivity.
Qed.
Print Assumptions C76_nearest_single_refuted.

(** The float fields of Buffer classes (4 or 8 bytes) do the same; the exception is struct.error. *)
Theorem C76_buffer_field : forall h e size z, size = None \/ size = Some 32 \/ size = Some 64 ->
  (2 ^ 1024 - 2 ^ 970 <= Z.abs z /\ pack_float h e size (VInt z) = Err StructError)
  \/ (Z.abs z < 2 ^ 1024 - 2 ^ 970 /\ exists p, nearest_double z p
      /\ pack_float h e size (VInt z) = pack_float h e size (VFloat p)).
Proof.
  intros h e size z Hs. destruct (pack_float_int h e size z Hs) as [H|(p & A & B & C & D & E)]; [now left|].
  right. split; [exact A|]. exists p. split; [repeat split; try apply B; try exact C; now apply D|exact E].
Qed.
Print Assumptions C76_buffer_field.

Example C76_nonvacuous :
  write HostLittle (MFloat BFloat64Marshal) (VInt (-3)) [] = (Ok tt, [0xC0; 8; 0; 0; 0; 0; 0; 0])
  /\ write HostLittle (MFloat BFloat64Marshal) (VInt (2 ^ 53 + 1)) [] = (Ok tt, [0x43; 0x40; 0; 0; 0; 0; 0; 0])
  /\ write HostLittle (MFloat BFloat64Marshal) (VInt (2 ^ 53 + 3)) [] = (Ok tt, [0x43; 0x40; 0; 0; 0; 0; 0; 2])
  /\ write HostLittle (MFloat BFloat32Marshal) (VInt (2 ^ 24)) [] = (Ok tt, [0x4B; 0x80; 0; 0])
  /\ write HostLittle (MFloat BFloat32Marshal) (VInt (2 ^ 1024)) [7] = (Err InstructError, [7])
  /\ write HostLittle (MFloat BFloat32Marshal) (VInt (2 ^ 128)) [7] = (Err OverflowError, [7])
  /\ fst (write HostLittle (MFloat BFloat64Marshal) (VInt (2 ^ 1024 - 2 ^ 970)) []) = Err InstructError
  /\ write HostLittle (MFloat BFloat64Marshal) (VInt (2 ^ 1024 - 2 ^ 970 - 1)) [] = (Ok tt, [0x7F; 0xEF; 255; 255; 255; 255; 255; 255])
  /\ pack_float HostLittle BLittle (Some 32) (VInt 1) = Ok (BArr [0; 0; 0x80; 0x3F]).
Proof. repeat split; vm_compute; reflexivity. Qed.

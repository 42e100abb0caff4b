(** Property C82: ints and floats that are equal. *)
From Verif Require Import Base IntCodec CodecSpec Stream StreamSpec Marshal FieldSpec FieldFacts ArrayFacts FloatSpec Formats FloatEq NumEq.
From Coq Require Import ZArith List Bool String Lia.
Import ListNotations.
Open Scope string_scope.
Open Scope list_scope.
Open Scope Z_scope.

(** [==] of an int and a float compares the values exactly. *)
Theorem C82_equality : forall z p,
  (py_eq (VInt z) (VFloat p) = true <-> exponent_field p <> 2047 /\ float_value p = z * float_one)
  /\ py_eq (VFloat p) (VInt z) = py_eq (VInt z) (VFloat p).
Proof. intros z p. split; [exact (int_eq_float_spec z p)|reflexivity]. Qed.
Print Assumptions C82_equality.

(** C82.  A constant of a float type may be given as an int: up to 2^24 (32-bit types) or 2^53 what is
    written is accepted when read. *)
Theorem C82_int_constant : forall h f n z cls cctx c a, Z.abs z <= 2 ^ (match ff_size f with F32 => 24 | F64 => 53 end) ->
  exists b, (forall a' out, write_field h (FConst n (MFloat f) (VInt z)) a' out = (Ok tt, out ++ b))
    /\ forall pre tail, read_field h cls cctx (FConst n (MFloat f) (VInt z)) c (SBytesIO (pre ++ b ++ tail) (zlen pre), a)
       = (Ok tt, (SBytesIO (pre ++ b ++ tail) (zlen pre + zlen b), a)).
Proof. exact const_int_of_float. Qed.
Print Assumptions C82_int_constant.

(** In general the float that is read is accepted exactly if it has the value of the int; infinities
    and NaNs never are. *)
Theorem C82_constant_by_value : forall h f n k cls cctx c a s p s', read h (MFloat f) (get_updated_context cctx (VObj cls a) c) s = (Ok (VFloat p), s') ->
  forall r st, read_field h cls cctx (FConst n (MFloat f) (VInt k)) c (s, a) = (r, st) ->
  st = (s', a) /\ (r = Ok tt /\ exponent_field p <> 2047 /\ float_value p = k * float_one
                   \/ r = Err InstructError /\ ~ (exponent_field p <> 2047 /\ float_value p = k * float_one)).
Proof. exact const_by_value. Qed.
Print Assumptions C82_constant_by_value.

(** So a constant that the type cannot hold exactly is written but never accepted. *)
Theorem C82_inexact_constant_refuted : exists f z b, write_field HostLittle (FConst "k" (MFloat f) (VInt z)) [] [] = (Ok tt, b)
  /\ fst (read_field HostLittle "S" None (FConst "k" (MFloat f) (VInt z)) [] (stream_of b, [])) = Err InstructError.
Proof. exists BFloat32Marshal, (2 ^ 24 + 1), [0x4B; 0x80; 0; 0]. split; vm_compute; reflexivity. Qed.
Print Assumptions C82_inexact_constant_refuted.

(** C82.  A constant of an int type given as a float is accepted when read, if it is whole, but can
    never be written. *)
Theorem C82_float_constant : forall h f n p, 
  (forall a out, write_field h (FConst n (MInt f) (VFloat p)) a out = (Err InstructError, out))
  /\ forall cls cctx c a s z s', read h (MInt f) (get_updated_context cctx (VObj cls a) c) s = (Ok (VInt z), s') ->
     exponent_field p <> 2047 -> float_value p = z * float_one ->
     read_field h cls cctx (FConst n (MInt f) (VFloat p)) c (s, a) = (Ok tt, (s', a)).
Proof.
  intros h f n p. split.
  - intros a out. rewrite const_write. reflexivity.
  - intros cls cctx c a s z s' R F V. rewrite const_read, R. cbn [py_eq]. now rewrite (proj2 (int_eq_float_spec z p) (conj F V)).
Qed.
Print Assumptions C82_float_constant.

(** C82.  A map of a float type may have ints as images. *)
Theorem C82_int_images : forall h f tbl mm c k z, mk_map tbl (MFloat f) = Ok mm -> dict_ok tbl -> In (k, VInt z) tbl ->
  Z.abs z <= 2 ^ (match ff_size f with F32 => 24 | F64 => 53 end) -> exists enc, roundtrips h mm c k enc.
Proof. exact map_int_of_float. Qed.
Print Assumptions C82_int_images.

(** A map with both 1 and 1.0 as images is refused. *)
Example C82_nonvacuous :
  write_field HostLittle (FConst "k" (MFloat BFloat32Marshal) (VInt 1)) [] [] = (Ok tt, [0x3F; 0x80; 0; 0])
  /\ fst (read_field HostLittle "S" None (FConst "k" (MFloat BFloat32Marshal) (VInt 1)) [] (stream_of [0x3F; 0x80; 0; 0], [])) = Ok tt
  /\ fst (read_field HostLittle "S" None (FConst "k" (MFloat BFloat32Marshal) (VInt 1)) [] (stream_of [0x3F; 0x80; 0; 1], [])) = Err InstructError
  /\ fst (read_field HostLittle "S" None (FConst "k" (MFloat BFloat32Marshal) (VInt 1)) [] (stream_of [0x7F; 0x80; 0; 0], [])) = Err InstructError
  /\ fst (read_field HostLittle "S" None (FConst "k" (MInt UBInt8Marshal) (VFloat (1023 * 2 ^ 52))) [] (stream_of [1], [])) = Ok tt
  /\ mk_map [(VStr [97], VInt 1); (VStr [98], VInt (-2))] (MFloat BFloat32Marshal) = Ok (MMap [(VStr [97], VInt 1); (VStr [98], VInt (-2))] (MFloat BFloat32Marshal))
  /\ dict_ok [(VStr [97], VInt 1); (VStr [98], VInt (-2))]
  /\ read HostLittle (MMap [(VStr [97], VInt 1); (VStr [98], VInt (-2))] (MFloat BFloat32Marshal)) [] (stream_of [0xC0; 0; 0; 0]) = (Ok (VStr [98]), SBytesIO [0xC0; 0; 0; 0] 4)
  /\ mk_map [(VStr [97], VInt 1); (VStr [98], VFloat (1023 * 2 ^ 52))] (MFloat BFloat32Marshal) = Err AssertionError
  /\ py_eq (VInt 0) (VFloat (2 ^ 63)) = true /\ py_eq (VInt 0) (VFloat 1) = false.
Proof.
  do 6 (split; [vm_compute; reflexivity|]). split; [|repeat (match goal with |- _ /\ _ => split; [vm_compute; reflexivity|] end); vm_compute; reflexivity].
  split; [constructor; [constructor; [vm_compute; reflexivity|constructor]|constructor; [constructor|constructor]]|].
  constructor; [split; vm_compute; reflexivity|]. constructor; [split; vm_compute; reflexivity|constructor].
Qed.

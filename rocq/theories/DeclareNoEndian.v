(** Integer fields declared with a byte order that is false (None or the empty text). *)
From Verif Require Import Base BaseProofs Marshal IntCodec CodecSpec IoBuffer IoSpec IoProofs IoOutput IntCodecProofs Serialize SerializeSpec SerializeFacts RefEngine BufferModel Declare DeclareSpec DeclareFacts.
From Coq Require Import ZArith List Bool String Lia ZifyBool.
Import ListNotations.
Open Scope string_scope.
Open Scope list_scope.
Open Scope Z_scope.

Lemma accumulate_value l : accumulate 0 l = le_value (rev l).
Proof. rewrite <- accumulate_rev. now rewrite rev_involutive. Qed.

Lemma le_bits l : bytes_ok l -> int_bits (le_value l) (8 * zlen l) = bits_of_bytes l.
Proof.
  intros B. pose proof (zlen_nonneg l). assert (E : le_value l = bits_value (bits_of_bytes l)) by (rewrite <- le_value_bits; now rewrite bytes_of_bits_of_bytes).
  apply bnth_ext.
  - rewrite zlen_int_bits, bits_of_bytes_length; lia.
  - rewrite zlen_int_bits by lia. intros i Hi. rewrite bnth_int_bits by lia. replace ((0 <=? i) && (i <? 8 * zlen l)) with true by lia.
    rewrite E. apply bits_value_testbit. lia.
Qed.

Lemma no_endian static args kw d size : int_field static args kw = Ok d ->
  let arg := argument int_sig args kw in
  (arg "endian" = PNone \/ arg "endian" = PText "") -> arg_bits (arg "byte_size") = Ok size ->
  forall h n l, bytes_ok l -> l <> [] -> size_at size n = Some (8 * zlen l) -> odd_width (8 * zlen l) ->
  (exists b, pack_int_kw h (kwargs_at n (d_pack_kw d)) (VInt (le_value l)) = Ok b /\ view_with b (bits_of_bytes l))
  /\ (forall rest b, view_with b (bits_of_bytes l ++ rest) ->
        unpack_int_kw h (kwargs_at n (d_unpack_kw d)) b = Ok (VInt (le_value (rev l)), Some (8 * zlen l))).
Proof.
  intros D arg E B h n l BL NE SZ O. remember (8 * zlen l) as w eqn:W. destruct (int_field_keywords _ _ _ _ D) as (_ & _ & PK & UK). fold arg in PK, UK.
  assert (SK : struct_key (Some w) = None).
  { cbn [struct_key]. unfold struct_size. destruct O as (O1 & O2 & O3 & O4).
    repeat match goal with |- context [?a =? ?b] => replace (a =? b) with false by lia end. reflexivity. }
  pose proof (zlen_nonneg l) as L0. assert (L1 : zlen l <> 0) by (intros Q; apply NE; now apply zlen_0_nil).
  assert (F : fractional_size (Some w) = Ok (Some w)).
  { cbn. replace (0 <=? w) with true by lia. reflexivity. }
  rewrite PK, UK, !kwargs_at_int. clear PK UK D.
  pose proof (bits_truthy _ _ n B) as BT. rewrite SZ in BT. revert BT. generalize (if truthy_arg (arg "byte_size") then arg "byte_size" else size_arg n). intros a BT.
  split.
  - destruct (bit_field_pack_nonneg h false BBig w (le_value l) O ltac:(lia)) as (b & P & V).
    { pose proof (le_value_bounds l BL) as Q. rewrite W, Z.pow_mul_r by lia. exact Q. }
    exists b. split; [|rewrite W in V; now rewrite le_bits in V].
    rewrite <- P. unfold pack_int_kw, pack_int. unfold kget at 1. cbn [Marshal.lookup]. rewrite String.eqb_refl, BT. cbn [rbind].
    rewrite F. cbn [rbind]. rewrite SK. reflexivity.
  - intros rest b (K & V & Bits). unfold unpack_int_kw. unfold kget at 1. cbn [Marshal.lookup]. rewrite String.eqb_refl, BT. cbn [rbind].
    rewrite F. cbn [rbind]. rewrite SK. unfold khas. cbn [Marshal.lookup]. rewrite String.eqb_refl.
    unfold kget; cbn [Marshal.lookup String.eqb Ascii.eqb Bool.eqb].
    replace (truthy_arg (arg "endian")) with false by (destruct E as [E|E]; rewrite E; reflexivity).
    destruct (prefix_bytes b w l K V) as (s & S1 & S2); auto; try lia.
    { rewrite Bits. apply firstn_app_exact. pose proof (bits_of_bytes_length l). unfold zlen in *. lia. }
    rewrite S1. cbn [rbind]. unfold to_bytes in S2. rewrite S2. cbn [rbind]. now rewrite accumulate_value.
Qed.

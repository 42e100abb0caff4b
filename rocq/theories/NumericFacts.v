(** Numeric marshals: the facts behind the property theorems C01-C04 and C51. *)
From Verif Require Import Base BaseProofs IntCodec CodecSpec IntCodecProofs FloatProofs
  Stream StreamSpec StreamProofs MinMax Marshal MarshalSpec MarshalInd MarshalRT.
From Coq Require Import ZArith List Bool String Lia ZifyBool ZifyNat.
Import ListNotations.
Open Scope Z_scope.
Ltac Zify.zify_post_hook ::= Z.div_mod_to_equations.

(** A plain stream standing at the end of [pre]. *)
Lemma mid_ok pre l : stream_ok (SBytesIO (pre ++ l) (zlen pre)).
Proof. cbn. rewrite zlen_app. pose proof (zlen_nonneg l). pose proof (zlen_nonneg pre). lia. Qed.
Lemma mid_rest pre l : rest (SBytesIO (pre ++ l) (zlen pre)) = l.
Proof. cbn. unfold zlen. rewrite Nat2Z.id. now rewrite skipn_app, skipn_all, Nat.sub_diag. Qed.

Lemma RT_mid h t m c v enc pre tail : RT h t m c v enc ->
  read h m c (SBytesIO (pre ++ enc ++ tail) (zlen pre))
  = (Ok v, SBytesIO (pre ++ enc ++ tail) (zlen pre + zlen enc)).
Proof.
  intros (_ & _ & Rd). rewrite (Rd _ tail); auto using mid_ok, mid_rest.
Qed.

Lemma int_roundtrip h f z : int_representable f z ->
  exists b,
    zlen b = width_in_bytes (f_size f)
    /\ (forall out, write h (MInt f) (VInt z) out = (Ok tt, out ++ b))
    /\ (forall c pre tail,
          read h (MInt f) c (SBytesIO (pre ++ b ++ tail) (zlen pre))
          = (Ok (VInt z), SBytesIO (pre ++ b ++ tail) (zlen pre + zlen b))).
Proof.
  intros H.
  assert (C : canon h true (MInt f) EMPTY_CONTEXT (VInt z)) by (exists z; auto).
  destruct (proj1 (roundtrip_all h) (MInt f) true EMPTY_CONTEXT (VInt z) C) as (e & RTe).
  apply int_representable_range in H.
  destruct (struct_pack_int_ok h f z H) as (b & E & L & B & _).
  pose proof RTe as (W & _). specialize (W []). cbn [write] in W. rewrite E in W.
  injection W as W. subst b. exists e. split; [now rewrite L|]. split; [apply RTe|].
  intros c pre tail. apply (RT_mid h true). destruct RTe as (W' & B' & Rd). repeat split; auto.
Qed.

Lemma int_digits h f z out out' i :
  write h (MInt f) (VInt z) out = (Ok tt, out') ->
  0 <= i < width_in_bytes (f_size f) ->
  (most_significant_first h (f_endian f) ->
     nth (Z.to_nat (zlen out + i)) out' 0 = (z / 256 ^ (width_in_bytes (f_size f) - 1 - i)) mod 256)
  /\ (~ most_significant_first h (f_endian f) ->
     nth (Z.to_nat (zlen out + i)) out' 0 = (z / 256 ^ i) mod 256).
Proof.
  cbn [write]. destruct (struct_pack_int h f z) as [b|e] eqn:E; [|discriminate].
  unfold out_write. intros X Hi. injection X as <-.
  pose proof (struct_pack_int_inv _ _ _ _ E) as R.
  destruct (struct_pack_int_ok h f z R) as (b' & E' & L & B & D). rewrite E in E'. injection E' as <-.
  change (width_in_bytes (f_size f)) with (isize_bytes (f_size f)) in *.
  set (n := isize_bytes (f_size f)) in *.
  replace (Z.to_nat (zlen out + i)) with (List.length out + Z.to_nat i)%nat by (unfold zlen in *; lia).
  rewrite app_nth2_plus.
  assert (Lb : List.length b = Z.to_nat n) by (unfold zlen in L; lia).
  split; intros M.
  - assert (Q : is_big h (f_endian f) = true) by (destruct M as [->|[-> ->]]; reflexivity).
    rewrite Q in D. rewrite <- (rev_involutive b), D. rewrite rev_nth by (rewrite le_digits_length; lia).
    rewrite le_digits_length, nth_le_digits by lia. do 3 f_equal. lia.
  - assert (Q : is_big h (f_endian f) = false).
    { destruct (f_endian f), h; auto; exfalso; apply M; unfold most_significant_first; auto. }
    rewrite Q in D. rewrite D, nth_le_digits by lia. do 3 f_equal. lia.
Qed.

Lemma int_reject h f z out : ~ int_representable f z ->
  write h (MInt f) (VInt z) out = (Err InstructError, out).
Proof.
  intros H. cbn [write]. rewrite struct_pack_int_err; [reflexivity|].
  intros R. apply H. now apply int_representable_range.
Qed.

Lemma int_accept h f z out : int_representable f z ->
  exists b, write h (MInt f) (VInt z) out = (Ok tt, out ++ b).
Proof. intros H. destruct (int_roundtrip h f z H) as (b & _ & W & _). eauto. Qed.

Lemma int_decode_total h f c pre b tail :
  bytes_ok b -> zlen b = width_in_bytes (f_size f) ->
  exists z, read h (MInt f) c (SBytesIO (pre ++ b ++ tail) (zlen pre))
            = (Ok (VInt z), SBytesIO (pre ++ b ++ tail) (zlen pre + zlen b))
    /\ int_representable f z
    /\ forall out, write h (MInt f) (VInt z) out = (Ok tt, out ++ b).
Proof.
  intros B L. destruct (struct_unpack_int_ok h f b L B) as (z & U & R & P).
  exists z. rewrite int_representable_range. repeat split; try apply R.
  - cbn [read]. unfold sbind at 1.
    change (isize_bytes (f_size f)) with (width_in_bytes (f_size f)). rewrite <- L.
    rewrite (sread_prefix _ b tail); [|apply mid_ok|apply mid_rest|].
    + destruct (Z.ltb_spec (zlen b) (zlen b)); [lia|]. rewrite U. reflexivity.
    + rewrite L. destruct (f_size f); cbn; unfold maxsize; lia.
  - intros out. cbn [write]. rewrite P. reflexivity.
Qed.

Lemma int_decode_short h f c pre b :
  zlen b < width_in_bytes (f_size f) ->
  read h (MInt f) c (SBytesIO (pre ++ b) (zlen pre))
  = (Err (NotEnoughDataError (width_in_bytes (f_size f)) (zlen b)),
     SBytesIO (pre ++ b) (zlen pre + zlen b)).
Proof.
  intros L. cbn [read]. unfold sbind at 1.
  change (isize_bytes (f_size f)) with (width_in_bytes (f_size f)).
  rewrite sread_ok; [|apply mid_ok|destruct (f_size f); cbn; unfold maxsize; lia].
  rewrite mid_rest. rewrite firstn_all2 by (unfold zlen in *; lia).
  destruct (Z.ltb_spec (zlen b) (width_in_bytes (f_size f))); [|lia].
  unfold sraise. f_equal. cbn [consume]. f_equal. unfold zlen in *; lia.
Qed.

Lemma float_roundtrip h f p : float_representable f p ->
  exists b,
    zlen b = match ff_size f with F32 => 4 | F64 => 8 end
    /\ (forall out, write h (MFloat f) (VFloat p) out = (Ok tt, out ++ b))
    /\ (forall c pre tail,
          read h (MFloat f) c (SBytesIO (pre ++ b ++ tail) (zlen pre))
          = (Ok (VFloat p), SBytesIO (pre ++ b ++ tail) (zlen pre + zlen b))).
Proof.
  intros H.
  assert (C : canon h true (MFloat f) EMPTY_CONTEXT (VFloat p)) by (exists p; auto).
  destruct (proj1 (roundtrip_all h) (MFloat f) true EMPTY_CONTEXT (VFloat p) C) as (e & RTe).
  destruct (float_codec_roundtrip h f p H) as (b & E & L & B & _).
  pose proof RTe as (W & _). specialize (W []). cbn [write] in W. rewrite E in W.
  injection W as W. subst b. exists e. split; [now rewrite L|]. split; [apply RTe|].
  intros c pre tail. apply (RT_mid h true). destruct RTe as (W' & B' & Rd). repeat split; auto.
Qed.

(** Every four bytes decode to a float that can be represented again. *)
Lemma float_decode_total h f c pre b tail :
  bytes_ok b -> zlen b = match ff_size f with F32 => 4 | F64 => 8 end ->
  exists p, read h (MFloat f) c (SBytesIO (pre ++ b ++ tail) (zlen pre))
            = (Ok (VFloat p), SBytesIO (pre ++ b ++ tail) (zlen pre + zlen b))
    /\ float_representable f p.
Proof.
  intros B L. change (zlen b = fsize_bytes (ff_size f)) in L.
  assert (exists p, struct_unpack_float h f b = Ok p /\ float_representable f p) as (p & U & R).
  { unfold struct_unpack_float. rewrite L, Z.eqb_refl. eexists; split; [reflexivity|].
    assert (V : 0 <= le_value (if is_big h (ff_endian f) then rev b else b) < 256 ^ zlen b).
    { destruct (is_big h (ff_endian f)).
      - rewrite <- (zlen_rev b). apply le_value_bounds, bytes_ok_rev, B.
      - apply le_value_bounds, B. }
    rewrite L in V. unfold float_representable. destruct (ff_size f); cbn [fsize_bytes] in V.
    - eexists; split; [|reflexivity]. exact V.
    - exact V. }
  exists p. split; auto. cbn [read]. unfold sbind at 1.
  rewrite <- L. rewrite (sread_prefix _ b tail); [|apply mid_ok|apply mid_rest|].
  - destruct (Z.ltb_spec (zlen b) (zlen b)); [lia|]. rewrite U. reflexivity.
  - rewrite L. destruct (ff_size f); cbn; unfold maxsize; lia.
Qed.

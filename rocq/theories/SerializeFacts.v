(** Field packers and unpackers: integers and floats. *)
From Verif Require Import Base BaseProofs IntCodec CodecSpec IntCodecProofs FloatProofs Stream Marshal
  Range IoBuffer IoSpec IoProofs IoMutProofs IoInsert IoFacts IoOutput IoViews Serialize SerializeSpec.
From Coq Require Import ZArith List Bool Lia ZifyBool ZifyNat.
Import ListNotations.
Open Scope Z_scope.
Ltac Zify.zify_post_hook ::= Z.div_mod_to_equations.

(** ** Slices from the beginning *)
Lemma slice_prefix b w : buf_ok b -> is_view b -> 0 <= w ->
  exists s, buf_slice b (Some 0) (Some w) = Ok s /\ buf_ok s /\ is_view s
    /\ buf_bits s = firstn (Z.to_nat w) (buf_bits b).
Proof.
  intros K V H. destruct (buf_slice_spec b (Some 0) (Some w) K V) as (S1 & _).
  pose proof (zlen_nonneg (buf_bits b)).
  destruct S1 as (s & E & K1 & V1 & B1).
  { unfold slice_in_order. rewrite py_clamp_id by lia. unfold py_clamp. destruct (w <? 0) eqn:?; lia. }
  exists s. split; [auto|]. split; [auto|]. split; [auto|]. rewrite B1. unfold slice_bits, py_slice.
  rewrite (py_clamp_id _ 0) by lia. change (Z.to_nat 0) with 0%nat. rewrite skipn_O, Z.sub_0_r.
  unfold py_clamp. destruct (w <? 0) eqn:?; [lia|]. destruct (Z_le_gt_dec w (zlen (buf_bits b))).
  - f_equal. lia.
  - rewrite !firstn_all2; auto; unfold zlen in *; lia.
Qed.

Lemma slice_suffix b k : buf_ok b -> is_view b -> 0 <= k ->
  exists s, buf_slice b (Some k) None = Ok s /\ buf_ok s /\ is_view s
    /\ buf_bits s = skipn (Z.to_nat k) (buf_bits b).
Proof.
  intros K V H. destruct (buf_slice_spec b (Some k) None K V) as (S1 & _).
  pose proof (zlen_nonneg (buf_bits b)).
  destruct S1 as (s & E & K1 & V1 & B1).
  { unfold slice_in_order, py_clamp. destruct (k <? 0) eqn:?, (zlen (buf_bits b) <? 0) eqn:?; lia. }
  exists s. split; [auto|]. split; [auto|]. split; [auto|]. rewrite B1. unfold slice_bits, py_slice.
  rewrite (py_clamp_id _ (zlen (buf_bits b))) by lia.
  unfold py_clamp. destruct (k <? 0) eqn:?; [lia|]. destruct (Z_le_gt_dec k (zlen (buf_bits b))).
  - rewrite Z.min_l by lia. apply firstn_all2. rewrite skipn_length. unfold zlen in *. lia.
  - rewrite Z.min_r by lia. rewrite Z.sub_diag. rewrite !skipn_all2; [reflexivity| |]; unfold zlen in *; lia.
Qed.

Lemma slice_whole b : buf_ok b -> is_view b ->
  exists s, buf_slice b (Some 0) None = Ok s /\ buf_ok s /\ is_view s /\ buf_bits s = buf_bits b.
Proof. intros K V. apply (slice_suffix b 0 K V). lia. Qed.

(** The bytes at the beginning of a view. *)
Lemma prefix_bytes b w l : buf_ok b -> is_view b -> 0 <= w -> bytes_ok l -> w = 8 * zlen l ->
  firstn (Z.to_nat w) (buf_bits b) = bits_of_bytes l ->
  exists s, buf_slice b (Some 0) (Some w) = Ok s /\ to_bytes s = Ok l.
Proof.
  intros K V Hw B Ew E. destruct (slice_prefix b w K V Hw) as (s & S1 & S2 & S3 & S4).
  exists s. split; [auto|]. unfold to_bytes. rewrite buf_bytes_spec, S4, E by auto.
  now rewrite bytes_of_bits_of_bytes.
Qed.

Lemma prefix_bytes_any b n : buf_ok b -> is_view b -> 0 <= n <= blen b -> 
  exists s l, buf_slice b (Some 0) (Some (8 * n)) = Ok s /\ to_bytes s = Ok l /\ bytes_ok l /\ zlen l = n
    /\ l = firstn (Z.to_nat n) (bytes_of_bits (buf_bits b)).
Proof.
  intros K V Hn. destruct (slice_prefix b (8 * n) K V) as (s & S1 & S2 & S3 & S4); [lia|].
  exists s, (bytes_of_bits (buf_bits s)). split; [auto|]. unfold to_bytes. rewrite buf_bytes_spec by auto.
  split; [reflexivity|]. destruct (bytes_of_bits_spec (buf_bits s)) as (B1 & L1 & V1). split; [auto|].
  destruct (bytes_of_bits_spec (buf_bits b)) as (B2 & L2 & V2).
  assert (Ls : zlen (buf_bits s) = Z.min (8 * n) (blength b)) by (rewrite S4, zlen_firstn, buf_bits_len by auto; lia).
  rewrite blen_cdiv in Hn. rewrite buf_bits_len in L2 by auto. pose proof (blength_nonneg b K).
  assert (Ln : zlen (bytes_of_bits (buf_bits s)) = n) by (rewrite L1, Ls; unfold cdiv8 in *; lia).
  split; [auto|]. apply bytes_ext; auto.
  - now apply bytes_ok_firstn.
  - rewrite zlen_firstn, Ln. lia.
  - intros i Hi. rewrite V1, S4, bnth_firstn by lia. rewrite bit_at_firstn by lia.
    rewrite Ln in Hi. replace (i <? 8 * n) with true by lia. now rewrite V2.
Qed.

(** ** Struct integers *)
Lemma struct_size_isize s : struct_size (8 * width_in_bytes s) = Some s.
Proof. destruct s; reflexivity. Qed.
Lemma struct_size_odd w : odd_width w -> struct_size w = None.
Proof.
  intros (H1 & H2 & H3 & H4). unfold struct_size.
  repeat match goal with |- context [if ?c then _ else _] => destruct c eqn:?; [lia|] end. reflexivity.
Qed.
Lemma struct_size_inv w s : struct_size w = Some s -> w = 8 * width_in_bytes s.
Proof.
  unfold struct_size. repeat match goal with |- context [if ?c then _ else _] => destruct c eqn:? end;
    intros H; inversion H; subst; cbn; lia.
Qed.
Lemma fractional_ok w : 0 <= w -> fractional_size (Some w) = Ok (Some w).
Proof. intros H. unfold fractional_size. now replace (0 <=? w) with true by lia. Qed.
Lemma width_pos s : 0 < width_in_bytes s. Proof. destruct s; cbn; lia. Qed.

Lemma format_plain signed e s : struct_width e s -> f_size (int_format signed e s) = s.
Proof. intros H. unfold int_format, format_size. cbn. destruct e, s; auto. exfalso; apply H; auto. Qed.
Lemma fits_range signed e s z : struct_width e s ->
  (int_fits signed (8 * width_in_bytes s) z <-> in_int_range (int_format signed e s) z).
Proof.
  intros H. rewrite <- int_representable_range. unfold int_representable, int_fits. rewrite format_plain by auto. reflexivity.
Qed.
Lemma msb_big h e : (msb_first h e -> is_big h (base_endian e) = true) /\ (~ msb_first h e -> is_big h (base_endian e) = false).
Proof.
  unfold msb_first. split; intros H; destruct e, h; cbn; auto; exfalso;
    try (apply H; intuition congruence); intuition congruence.
Qed.

Lemma pack_int_struct h signed e s v : pack_int h signed e (Some (8 * width_in_bytes s)) v = pack_struct_int h signed e s v.
Proof.
  unfold pack_int. rewrite fractional_ok by (pose proof (width_pos s); lia). cbn [rbind struct_key].
  now rewrite struct_size_isize.
Qed.
Lemma unpack_int_struct h signed e s b : unpack_int h signed e (Some (8 * width_in_bytes s)) b = unpack_struct_int h signed e s b.
Proof.
  unfold unpack_int. rewrite fractional_ok by (pose proof (width_pos s); lia). cbn [rbind struct_key].
  now rewrite struct_size_isize.
Qed.

Lemma unpack_struct_at h signed e s l z b rest : bytes_ok l -> zlen l = isize_bytes (f_size (int_format signed e s)) ->
  struct_unpack_int h (int_format signed e s) l = Ok z -> view_with b (bits_of_bytes l ++ rest) ->
  unpack_struct_int h signed e s b = Ok (VInt z, Some (8 * isize_bytes (f_size (int_format signed e s)))).
Proof.
  intros B L U (K & V & Eb). unfold unpack_struct_int. set (n := isize_bytes (f_size (int_format signed e s))) in *.
  assert (Hl : 8 * n <= blength b).
  { rewrite <- buf_bits_len, Eb, zlen_app, bits_of_bytes_length by auto. pose proof (zlen_nonneg rest). lia. }
  replace (n <=? blen b) with true by (rewrite blen_cdiv; unfold cdiv8; lia). cbn [passert rbind].
  destruct (prefix_bytes b (8 * n) l K V) as (p & P1 & P2); auto; try lia.
  { pose proof (zlen_nonneg l). lia. }
  { rewrite Eb. rewrite firstn_app, firstn_all2.
    - replace (Z.to_nat (8 * n) - length (bits_of_bytes l))%nat with 0%nat; [now rewrite firstn_O, app_nil_r|].
      pose proof (bits_of_bytes_length l). unfold zlen in *. lia.
    - pose proof (bits_of_bytes_length l). unfold zlen in *. lia. }
  rewrite P1. cbn [rbind]. rewrite P2. cbn [rbind]. rewrite U. reflexivity.
Qed.

Lemma int_field_roundtrip h signed e s z : struct_width e s -> int_fits signed (8 * width_in_bytes s) z ->
  exists l, pack_int h signed e (Some (8 * width_in_bytes s)) (VInt z) = Ok (BArr l)
    /\ bytes_ok l /\ zlen l = width_in_bytes s
    /\ (forall i, 0 <= i < width_in_bytes s -> int_byte h e (width_in_bytes s) z i (nth (Z.to_nat i) l 0))
    /\ forall b rest, view_with b (bits_of_bytes l ++ rest) ->
         unpack_int h signed e (Some (8 * width_in_bytes s)) b = Ok (VInt z, Some (8 * width_in_bytes s)).
Proof.
  intros W H. apply (fits_range signed e s z W) in H.
  destruct (struct_pack_int_ok h _ z H) as (l & E & L & B & D). exists l.
  rewrite pack_int_struct. unfold pack_struct_int. rewrite E. cbn [rbind]. split; [reflexivity|]. split; [auto|].
  rewrite format_plain in * by auto. change (isize_bytes s) with (width_in_bytes s) in *. split; [auto|]. split.
  - intros i Hi. destruct (msb_big h e) as (M1 & M2). cbn [f_endian int_format] in D. split; intros M.
    + rewrite M1 in D by auto. rewrite <- (rev_involutive l), D, rev_nth by (rewrite le_digits_length; lia).
      rewrite le_digits_length, nth_le_digits by lia. do 3 f_equal. lia.
    + rewrite M2 in D by auto. rewrite D, nth_le_digits by lia. do 3 f_equal. lia.
  - intros b rest Hb. rewrite unpack_int_struct.
    rewrite (unpack_struct_at h signed e s l z b rest); auto; rewrite ?format_plain by auto; auto.
    now apply struct_unpack_pack_int.
Qed.

Lemma int_field_reject h signed e s z : struct_width e s -> ~ int_fits signed (8 * width_in_bytes s) z ->
  pack_int h signed e (Some (8 * width_in_bytes s)) (VInt z) = Err StructError.
Proof.
  intros W H. rewrite pack_int_struct. unfold pack_struct_int. rewrite struct_pack_int_err; [reflexivity|].
  intros Q. apply H. now apply (fits_range signed e s z W).
Qed.
Lemma int_field_not_int h signed e s v : (forall z, v <> VInt z) ->
  pack_int h signed e (Some (8 * width_in_bytes s)) v = Err StructError.
Proof. intros H. rewrite pack_int_struct. destruct v; try reflexivity. now destruct (H z). Qed.

Lemma int_field_decodes h signed e s b : struct_width e s -> buf_ok b -> is_view b -> width_in_bytes s <= blen b ->
  exists z, unpack_int h signed e (Some (8 * width_in_bytes s)) b = Ok (VInt z, Some (8 * width_in_bytes s))
    /\ int_fits signed (8 * width_in_bytes s) z
    /\ pack_int h signed e (Some (8 * width_in_bytes s)) (VInt z)
       = Ok (BArr (firstn (Z.to_nat (width_in_bytes s)) (bytes_of_bits (buf_bits b)))).
Proof.
  intros W K V H. pose proof (width_pos s).
  destruct (prefix_bytes_any b (width_in_bytes s) K V) as (p & l & P1 & P2 & B & L & El); [lia|].
  destruct (struct_unpack_int_ok h (int_format signed e s) l) as (z & Z1 & Z2 & Z3); auto.
  { rewrite format_plain by auto. exact L. }
  exists z. rewrite unpack_int_struct, pack_int_struct. unfold unpack_struct_int, pack_struct_int.
  rewrite format_plain by auto. change (isize_bytes s) with (width_in_bytes s).
  replace (width_in_bytes s <=? blen b) with true by lia. cbn [passert rbind]. rewrite P1. cbn [rbind]. rewrite P2. cbn [rbind].
  rewrite Z1, Z3. cbn [rbind]. split; [reflexivity|]. split; [now apply (fits_range signed e s z W)|]. now rewrite El.
Qed.

Lemma int_field_short h signed e s b : blen b < width_in_bytes s ->
  unpack_int h signed e (Some (8 * width_in_bytes s)) b = Err AssertionError.
Proof.
  intros H. rewrite unpack_int_struct. unfold unpack_struct_int.
  assert (width_in_bytes s <= isize_bytes (f_size (int_format signed e s))) by (destruct e, s; cbn; lia).
  now replace (isize_bytes (f_size (int_format signed e s)) <=? blen b) with false by lia.
Qed.

(** 'unspecified' endianness on four bytes. *)
Lemma int_unspecified_pack h signed z : int_fits signed 64 z ->
  exists l, pack_int h signed BUnspecified (Some 32) (VInt z) = Ok (BArr l) /\ zlen l = 8.
Proof.
  intros H. assert (R : in_int_range (int_format signed BUnspecified I32) z).
  { apply int_representable_range. exact H. }
  destruct (struct_pack_int_ok h _ z R) as (l & E & L & B & D). exists l.
  change 32 with (8 * width_in_bytes I32). rewrite pack_int_struct. unfold pack_struct_int. rewrite E. auto.
Qed.
Lemma int_unspecified_unpack h signed b : blen b < 8 ->
  unpack_int h signed BUnspecified (Some 32) b = Err AssertionError.
Proof.
  intros H. change 32 with (8 * width_in_bytes I32). rewrite unpack_int_struct. unfold unpack_struct_int. cbn [int_format f_size format_size isize_bytes].
  now replace (8 <=? blen b) with false by lia.
Qed.

(** ** Integers of other widths *)
Lemma list_upd_app {A} (pre : list A) x l a : list_upd (pre ++ x :: l) (length pre) a = pre ++ a :: l.
Proof. induction pre as [|p pre IH]; cbn; [reflexivity|]. now rewrite IH. Qed.

(** One byte at a byte boundary, over a zero byte. *)
Lemma set_byte_zero pre rest s t n v : is_byte v -> 0 <= n <= 8 ->
  set_byte_bits (8 * zlen pre) n v (mkBa (pre ++ 0 :: rest) s t) = (Ok tt, mkBa (pre ++ v :: rest) s t).
Proof.
  intros Hv Hn. pose proof (zlen_nonneg pre). unfold set_byte_bits.
  assert (R0 : Z.rem (8 * zlen pre) 8 = 0) by (rewrite Z.mul_comm; apply Z.rem_mul; lia).
  assert (Q0 : Z.quot (8 * zlen pre) 8 = zlen pre) by (rewrite Z.mul_comm; apply Z.quot_mul; lia).
  rewrite R0. replace (0 + n <=? 8) with true by lia. rewrite orb_true_r.
  unfold set_in_byte. rewrite R0, Q0. change (0 =? 0) with true. cbn [andb].
  assert (Hz : Z.to_nat (zlen pre) = length pre) by (unfold zlen; lia).
  assert (Hlen : forall (y : Z) r, 0 <= zlen pre < zlen (pre ++ y :: r)).
  { intros y r. rewrite zlen_app, zlen_cons. pose proof (zlen_nonneg r). lia. }
  destruct (n =? 8) eqn:E.
  - unfold ba_store. cbn [ba_buf ba_start ba_stop]. rewrite ba_set_ok by auto. rewrite Hz, list_upd_app. reflexivity.
  - unfold sbind, ba_load, ba_store, slift, py_shl1. cbn [ba_buf ba_start ba_stop].
    rewrite (py_nth_ok _ _ 0) by auto. rewrite Hz, app_nth2, Nat.sub_diag by lia. cbn [nth].
    replace (n <? 0) with false by lia. change (0 <? 0) with false. cbn match.
    rewrite Z.land_0_l. rewrite ba_set_ok by (auto; unfold is_byte; lia). cbn [ba_buf ba_start ba_stop].
    rewrite Hz, list_upd_app. rewrite (py_nth_ok _ _ 0) by auto. rewrite Hz, app_nth2, Nat.sub_diag by lia. cbn [nth].
    rewrite Z.lor_0_l, Z.shiftl_0_r. change 255 with (Z.ones 8). rewrite Z.land_ones by lia.
    change (2 ^ 8) with 256. rewrite Z.mod_small by (unfold is_byte in Hv; lia).
    rewrite ba_set_ok by auto. rewrite Hz, list_upd_app. reflexivity.
Qed.

Lemma copy_zero L : forall pre n s t rem, bytes_ok L -> (length L <= n)%nat -> 8 * zlen L < rem + 8 ->
  copy_loop (8 * zlen pre) rem L (mkBa (pre ++ repeat 0 n) s t)
  = (Ok tt, mkBa (pre ++ L ++ repeat 0 (n - length L)) s t).
Proof.
  induction L as [|v L IH]; intros pre n s t rem B Hn Hr; cbn [copy_loop].
  - cbn [List.app length]. now rewrite Nat.sub_0_r.
  - inversion B as [|? ? Bv BL]; subst. destruct n as [|n]; cbn [length] in Hn; [lia|]. rewrite zlen_cons in Hr.
    pose proof (zlen_nonneg L). cbn [repeat]. unfold sbind. rewrite set_byte_zero by (auto; lia).
    replace (8 * zlen pre + 8) with (8 * zlen (pre ++ [v])) by (rewrite zlen_app, zlen_cons, zlen_nil; lia).
    replace (pre ++ v :: repeat 0 n) with ((pre ++ [v]) ++ repeat 0 n) by now rewrite <- app_assoc.
    rewrite IH by (auto; lia). cbn [length]. rewrite Nat.sub_succ, <- app_assoc. reflexivity.
Qed.

Lemma bit_length_pos_le n w : 0 < w -> (Z.max 1 (bit_length n) <= w <-> Z.abs n < 2 ^ w).
Proof.
  intros Hw. assert (E : bit_length n = bit_length (Z.abs n)) by (unfold bit_length; rewrite Z.abs_involutive; destruct n; reflexivity).
  rewrite <- (bit_length_le (Z.abs n) w) by lia. rewrite <- E. pose proof (bit_length_nonneg n). lia.
Qed.

Lemma pack_bit_int_ok n w : 0 < w -> Z.abs n < 2 ^ w ->
  exists b, pack_bit_int n (Some w) = Ok b /\ view_with b (int_bits (n mod 2 ^ (8 * int_bytes n)) w) /\ blength b = w.
Proof.
  intros Hw Hn. apply bit_length_pos_le in Hn; auto. unfold pack_bit_int, mk_baa, mk_view.
  set (N := Z.to_nat (cdiv8 w)).
  assert (HN : zlen (repeat 0 N) = cdiv8 w) by (rewrite zlen_repeat; unfold N, cdiv8; lia).
  replace (0 <=? 0) with true by lia. cbn [blen]. rewrite HN.
  replace (w <=? 8 * cdiv8 w) with true by (unfold cdiv8; lia). replace (0 <=? w) with true by lia. cbn [passert rbind].
  unfold run_ba, ba_setitem. unfold sbind, slift, ba_key_to_range, key_to_range, translate_offset. cbn [ba_start ba_stop].
  rewrite !Z.sub_0_r, !Z.add_0_r. replace (0 <? 0) with false by lia. replace (w <? 0) with false by lia.
  rewrite (Z.min_l 0 w), (Z.min_l w w) by lia. replace ((0 <=? w) && (0 <=? 0)) with true by lia. cbn [passert rbind fst snd].
  rewrite Z.sub_0_r. unfold value_and_length. replace (w <? Z.max 1 (bit_length n)) with false by lia. cbn [fst snd].
  replace (Z.max (Z.max 1 (bit_length n)) w) with w by lia.
  unfold set_range. unfold sbind, slift. rewrite !Z.sub_0_r. replace ((0 <=? w) && (0 <=? w)) with true by lia. cbn [passert].
  replace (w <? w) with false by lia. unfold copy_to_range. fold (int_bytes n).
  set (k := Z.to_nat (int_bytes n)). destruct (int_digits_spec k n) as (Bd & Ld & Vd).
  assert (Hk : Z.of_nat k = int_bytes n) by (unfold k, int_bytes, cdiv8; lia).
  assert (Hkw : 8 * int_bytes n < w + 8) by (unfold int_bytes, cdiv8; lia).
  assert (Hkl : length (int_digits k n) = k) by (unfold zlen in Ld; lia).
  change 0 with (8 * zlen (@nil Z)) at 1.
  change (repeat 0 N) with ([] ++ repeat 0 N). rewrite copy_zero by (auto; unfold N, cdiv8; lia).
  cbn [rbind]. eexists. split; [reflexivity|].
  assert (HL : zlen (int_digits k n ++ repeat 0 (N - length (int_digits k n))) = cdiv8 w).
  { rewrite zlen_app, zlen_repeat, Ld, Hkl. unfold N, cdiv8 in *. lia. }
  assert (K : buf_ok (ba_view (mkBa ([] ++ int_digits k n ++ repeat 0 (N - length (int_digits k n))) 0 w))).
  { cbn [buf_ok ba_view ba_buf ba_start ba_stop List.app]. split; [|cbn [blen]; rewrite HL; unfold cdiv8; lia].
    apply bytes_ok_app. split; [auto|apply bytes_ok_repeat0]. }
  split; [|cbn [blength ba_view ba_start ba_stop]; lia]. split; [exact K|]. split; [exact I|].
  apply bnth_ext; [rewrite buf_bits_len, zlen_int_bits by (auto; lia); cbn; lia|].
  intros i Hi. rewrite buf_bits_len in Hi by exact K. cbn [blength ba_view ba_start ba_stop] in Hi.
  rewrite bnth_int_bits by lia. replace ((0 <=? i) && (i <? w)) with true by lia.
  unfold ba_view. cbn [ba_buf ba_start ba_stop List.app]. rewrite bnth_view by exact K.
  replace ((0 <=? i) && (i <? w - 0)) with true by lia. cbn [andb buf_bits]. rewrite bnth_bytes, Z.add_0_l.
  rewrite bit_at_app, Ld, bit_at_repeat0.
  destruct (i <? 8 * Z.of_nat k) eqn:E.
  - rewrite Vd. replace ((0 <=? i) && (i <? 8 * Z.of_nat k)) with true by lia. rewrite Z.mod_pow2_bits_low by lia. reflexivity.
  - rewrite Z.mod_pow2_bits_high by lia. reflexivity.
Qed.

Lemma int_bytes_nonneg n : 0 <= n -> n mod 2 ^ (8 * int_bytes n) = n.
Proof.
  intros H. apply Z.mod_small. split; [auto|]. unfold int_bytes. pose proof (bit_length_nonneg n).
  apply bit_length_le; unfold cdiv8; lia.
Qed.

Lemma pack_bit_int_err n w : 0 <= w -> w = 0 \/ 2 ^ w <= Z.abs n -> pack_bit_int n (Some w) = Err ValueError.
Proof.
  intros Hw Hn. unfold pack_bit_int, mk_baa, mk_view.
  assert (HN : zlen (repeat 0 (Z.to_nat (cdiv8 w))) = cdiv8 w) by (rewrite zlen_repeat; unfold cdiv8; lia).
  replace (0 <=? 0) with true by lia. cbn [blen]. rewrite HN.
  replace (w <=? 8 * cdiv8 w) with true by (unfold cdiv8; lia). replace (0 <=? w) with true by lia. cbn [passert rbind].
  unfold run_ba, ba_setitem. unfold sbind, slift, ba_key_to_range, key_to_range, translate_offset. cbn [ba_start ba_stop].
  rewrite !Z.sub_0_r, !Z.add_0_r. replace (0 <? 0) with false by lia. replace (w <? 0) with false by lia.
  rewrite (Z.min_l 0 w), (Z.min_l w w) by lia. replace ((0 <=? w) && (0 <=? 0)) with true by lia. cbn [passert rbind fst snd].
  rewrite Z.sub_0_r. unfold value_and_length. replace (w <? Z.max 1 (bit_length n)) with true; [reflexivity|].
  destruct Hn as [->|Hn]; [lia|]. destruct (Z.eq_dec w 0); [lia|].
  assert (~ Z.max 1 (bit_length n) <= w) by (rewrite bit_length_pos_le by lia; lia). lia.
Qed.

(** Reading *)
Lemma accumulate_snoc l : forall acc x, accumulate acc (l ++ [x]) = accumulate acc l * 256 + x.
Proof. induction l as [|b l IH]; intros acc x; cbn; auto. Qed.
Lemma accumulate_rev l : accumulate 0 (rev l) = le_value l.
Proof. induction l as [|b l IH]; [reflexivity|]. cbn [rev le_value]. rewrite accumulate_snoc, IH. lia. Qed.

Lemma bits_value_app l l' : bits_value (l ++ l') = bits_value l + 2 ^ zlen l * bits_value l'.
Proof.
  induction l as [|b l IH]; cbn [List.app bits_value]; [rewrite zlen_nil; lia|].
  rewrite IH, zlen_cons. pose proof (zlen_nonneg l). rewrite Z.pow_add_r by lia. lia.
Qed.
Lemma le_value_bits l : le_value (bytes_of_bits l) = bits_value l.
Proof.
  remember (length l) as n eqn:En. revert l En. induction n as [n IH] using lt_wf_ind. intros l En.
  destruct (Z_lt_ge_dec (zlen l) 8) as [Hs|Hs].
  - destruct (Z.eq_dec (zlen l) 0) as [H0|H0].
    + apply zlen_0_nil in H0. subst l. reflexivity.
    + pose proof (zlen_nonneg l). rewrite bytes_of_bits_short by lia. cbn [le_value]. lia.
  - rewrite bytes_of_bits_cons8 by lia. cbn [le_value]. rewrite IH with (m := length (skipn 8 l)); auto.
    + rewrite <- (firstn_skipn 8 l) at 3. rewrite bits_value_app, zlen_firstn.
      replace (Z.min (Z.of_nat 8) (zlen l)) with 8 by lia. change (2 ^ 8) with 256. lia.
    + rewrite skipn_length. unfold zlen in Hs. lia.
Qed.

Lemma rmap_list_rev {A B} (f : A -> res B) l m : rmap_list f l = Ok m -> rmap_list f (rev l) = Ok (rev m).
Proof.
  assert (App : forall l1 l2 m1 m2, rmap_list f l1 = Ok m1 -> rmap_list f l2 = Ok m2 -> rmap_list f (l1 ++ l2) = Ok (m1 ++ m2)).
  { induction l1 as [|a l1 IH]; intros l2 m1 m2 H1 H2; cbn [rmap_list List.app] in *.
    - injection H1 as <-. exact H2.
    - destruct (f a) as [b|e]; cbn [rbind] in *; [|discriminate]. destruct (rmap_list f l1) as [r|e] eqn:E; cbn [rbind] in *; [|discriminate].
      injection H1 as <-. rewrite (IH l2 r m2) by auto. reflexivity. }
  revert m. induction l as [|a l IH]; intros m H; cbn [rmap_list rev] in *.
  - injection H as <-. reflexivity.
  - destruct (f a) as [b|e] eqn:E; cbn [rbind] in *; [|discriminate]. destruct (rmap_list f l) as [r|e] eqn:E2; cbn [rbind] in *; [|discriminate].
    injection H as <-. cbn [rev]. apply App; [now apply IH|]. cbn [rmap_list]. rewrite E. reflexivity.
Qed.

(** Indexing byte by byte is iterating. *)
Lemma buf_nth_all b : buf_ok b -> rmap_list (buf_nth b) (py_range (blen b)) = Ok (bytes_of_bits (buf_bits b)).
Proof.
  intros K. destruct (rmap_list_ok (buf_nth b) (fun i z => is_byte z /\ forall j, 0 <= j < 8 -> Z.testbit z j = bnth (buf_bits b) (8 * i + j)) (py_range (blen b))) as (L & L1 & L2).
  { intros i Hi. apply py_range_In in Hi. destruct (buf_nth_spec b K i Hi) as (z & Z1 & Z2 & Z3). exists z. auto. }
  rewrite L1. f_equal. pose proof (Forall2_len _ _ _ L2) as Ll. rewrite py_range_length in Ll.
  pose proof (blength_nonneg b K). assert (HL : zlen L = blen b) by (rewrite blen_cdiv in *; unfold zlen, cdiv8 in *; lia).
  apply bytes_of_bits_unique.
  - apply Forall_forall. intros z Hz. apply (In_nth _ _ 0) in Hz. destruct Hz as (k & Hk & <-).
    apply (Forall2_nth _ _ _ k 0 0 L2). rewrite py_range_length. lia.
  - rewrite HL, buf_bits_len by auto. apply blen_cdiv.
  - intros i Hi. rewrite bit_at_nonneg by lia.
    destruct (Forall2_nth _ _ _ (Z.to_nat (i / 8)) 0 0 L2) as (_ & Q); [rewrite py_range_length; lia|].
    rewrite Q by lia. rewrite py_range_nth by lia. f_equal. lia.
Qed.

Lemma unpack_bit_int_some b w : buf_ok b -> is_view b -> 0 <= w ->
  unpack_bit_int b (Some w) = Ok (VInt (bits_value (firstn (Z.to_nat w) (buf_bits b))), Some w).
Proof.
  intros K V H. unfold unpack_bit_int. destruct (slice_prefix b w K V H) as (s & S1 & S2 & S3 & S4).
  rewrite S1. cbn [rbind]. rewrite (rmap_list_rev _ _ _ (buf_nth_all s S2)). cbn [rbind].
  now rewrite accumulate_rev, le_value_bits, S4.
Qed.
Lemma unpack_bit_int_none b : buf_ok b -> is_view b ->
  unpack_bit_int b None = Ok (VInt (bits_value (buf_bits b)), None).
Proof.
  intros K V. unfold unpack_bit_int. destruct (slice_whole b K V) as (s & S1 & S2 & S3 & S4).
  rewrite S1. cbn [rbind]. rewrite (rmap_list_rev _ _ _ (buf_nth_all s S2)). cbn [rbind].
  now rewrite accumulate_rev, le_value_bits, S4.
Qed.

Lemma int_bits_value n w : 0 <= w -> bits_value (int_bits n w) = n mod 2 ^ w.
Proof.
  intros H. apply Z.bits_inj'. intros i Hi. rewrite bits_value_testbit, bnth_int_bits by lia.
  destruct (i <? w) eqn:E.
  - replace ((0 <=? i) && true) with true by lia. now rewrite Z.mod_pow2_bits_low by lia.
  - rewrite andb_false_r. now rewrite Z.mod_pow2_bits_high by lia.
Qed.
Lemma firstn_app_exact {A} (l r : list A) n : n = length l -> firstn n (l ++ r) = l.
Proof. intros ->. rewrite firstn_app, Nat.sub_diag, firstn_O, app_nil_r. apply firstn_all. Qed.

(** Widths without a struct codec. *)
Lemma bit_field_pack h signed e w n : odd_width w -> 0 < w -> Z.abs n < 2 ^ w ->
  exists b, pack_int h signed e (Some w) (VInt n) = Ok b /\ view_with b (int_bits (n mod 2 ^ (8 * int_bytes n)) w).
Proof.
  intros O Hw Hn. unfold pack_int. rewrite fractional_ok by lia. cbn [rbind struct_key]. rewrite struct_size_odd by auto.
  destruct (pack_bit_int_ok n w Hw Hn) as (b & B1 & B2 & _). eauto.
Qed.
Lemma bit_field_pack_nonneg h signed e w n : odd_width w -> 0 < w -> 0 <= n < 2 ^ w ->
  exists b, pack_int h signed e (Some w) (VInt n) = Ok b /\ view_with b (int_bits n w).
Proof.
  intros O Hw Hn. destruct (bit_field_pack h signed e w n O Hw) as (b & B1 & B2); [lia|].
  rewrite int_bytes_nonneg in B2 by lia. eauto.
Qed.
Lemma bit_field_reject h signed e w n : odd_width w -> 0 <= w -> w = 0 \/ 2 ^ w <= Z.abs n ->
  pack_int h signed e (Some w) (VInt n) = Err ValueError.
Proof.
  intros O Hw Hn. unfold pack_int. rewrite fractional_ok by lia. cbn [rbind struct_key]. rewrite struct_size_odd by auto.
  now apply pack_bit_int_err.
Qed.
Lemma bit_field_unpack h signed e w b : odd_width w -> 0 <= w -> buf_ok b -> is_view b ->
  unpack_int h signed e (Some w) b = Ok (VInt (bits_value (firstn (Z.to_nat w) (buf_bits b))), Some w).
Proof.
  intros O Hw K V. unfold unpack_int. rewrite fractional_ok by lia. cbn [rbind struct_key]. rewrite struct_size_odd by auto.
  now apply unpack_bit_int_some.
Qed.
Lemma bit_field_roundtrip h signed e w n b rest : odd_width w -> 0 <= w -> view_with b (int_bits n w ++ rest) ->
  unpack_int h signed e (Some w) b = Ok (VInt (n mod 2 ^ w), Some w).
Proof.
  intros O Hw (K & V & E). rewrite bit_field_unpack, E by auto. rewrite firstn_app_exact, int_bits_value by (pose proof (zlen_int_bits n w Hw); unfold zlen in *; lia).
  reflexivity.
Qed.
Lemma bit_field_no_size h signed e n : pack_int h signed e None (VInt n) = Err AssertionError.
Proof. reflexivity. Qed.
Lemma bit_field_not_int h signed e w v : odd_width w -> 0 <= w -> (forall n, v <> VInt n) ->
  pack_int h signed e (Some w) v = Err AttributeError.
Proof.
  intros O Hw H. unfold pack_int. rewrite fractional_ok by lia. cbn [rbind struct_key]. rewrite struct_size_odd by auto.
  destruct v; try reflexivity. now destruct (H z).
Qed.
Lemma unpack_int_negative_size h signed e w b v : w < 0 ->
  unpack_int h signed e (Some w) b = Err AssertionError /\ pack_int h signed e (Some w) v = Err AssertionError.
Proof. intros H. unfold unpack_int, pack_int, fractional_size. now replace (0 <=? w) with false by lia. Qed.

(** ** Floats *)
Lemma single_field_roundtrip h e p : float_representable (mkFFmt (base_endian e) F32) p ->
  exists l, pack_float h e (Some 32) (VFloat p) = Ok (BArr l) /\ pack_float h e None (VFloat p) = Ok (BArr l)
    /\ bytes_ok l /\ zlen l = 4
    /\ forall b rest, view_with b (bits_of_bytes l ++ rest) ->
         unpack_float h e (Some 32) b = Ok (VFloat p, Some 32) /\ unpack_float h e None b = Ok (VFloat p, Some 32).
Proof.
  intros R. destruct (float_codec_roundtrip h _ p R) as (l & E & L & B & U). exists l.
  unfold pack_float. cbn [int_size float_key rbind passert]. change (32 mod 8) with 0. change ((0 <=? 32) && (0 =? 0)) with true.
  cbn [int_size float_key rbind passert]. change (32 =? 32) with true. cbn match. cbn [rbind]. rewrite E. cbn [rbind].
  split; [reflexivity|]. split; [reflexivity|]. split; [auto|]. split; [exact L|]. intros b rest (K & V & Eb).
  assert (G : (let* _ := passert (4 <=? blen b) in let* p0 := buf_slice b (Some 0) (Some 32) in let* l0 := to_bytes p0 in
      let* q := struct_unpack_float h (mkFFmt (base_endian e) F32) l0 in Ok (VFloat q, Some 32)) = Ok (VFloat p, Some 32)).
  { cbn [ff_size fsize_bytes] in L.
    assert (Hl : 32 <= blength b).
    { rewrite <- buf_bits_len, Eb, zlen_app, bits_of_bytes_length by auto. pose proof (zlen_nonneg rest). lia. }
    replace (4 <=? blen b) with true by (rewrite blen_cdiv; unfold cdiv8; lia). cbn [passert rbind].
    destruct (prefix_bytes b 32 l K V) as (s & P1 & P2); auto; try lia.
    { rewrite Eb. apply firstn_app_exact. pose proof (bits_of_bytes_length l). unfold zlen in *. lia. }
    rewrite P1. cbn [rbind]. rewrite P2. cbn [rbind]. rewrite U. reflexivity. }
  split; exact G.
Qed.
Lemma double_field_pack h e p : 0 <= p < 2 ^ 64 ->
  exists l, pack_float h e (Some 64) (VFloat p) = Ok (BArr l) /\ bytes_ok l /\ zlen l = 8.
Proof.
  intros R. destruct (float_codec_roundtrip h (mkFFmt (base_endian e) F64) p R) as (l & E & L & B & U).
  exists l. unfold pack_float, int_size. change ((0 <=? 64) && (64 mod 8 =? 0)) with true. cbn [rbind passert float_key].
  change (64 =? 32) with false. change (64 =? 64) with true. cbn match. cbn [rbind]. rewrite E. auto.
Qed.
Lemma double_field_unpack h e b : unpack_float h e (Some 64) b = Err AssertionError.
Proof. reflexivity. Qed.
Lemma float_field_sizes h e w b v : w <> 32 -> w <> 64 ->
  pack_float h e (Some w) v = Err AssertionError /\ unpack_float h e (Some w) b = Err AssertionError.
Proof.
  intros H1 H2. unfold pack_float, unpack_float, int_size. destruct ((0 <=? w) && (w mod 8 =? 0)); cbn [passert rbind]; [|auto].
  unfold float_key. replace (w =? 32) with false by lia. replace (w =? 64) with false by lia. auto.
Qed.

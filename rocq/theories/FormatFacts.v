(** The exported numeric types are what their names say. *)
From Verif Require Import Base BaseProofs IntCodec CodecSpec Stream StreamSpec StreamProofs Marshal MarshalSpec MarshalRT NumericFacts
  IntCodecProofs FloatProofs FloatSpec FloatRound Formats FormatSpec.
From Coq Require Import ZArith List Bool String Lia ZifyBool ZifyNat.
Import ListNotations.
Open Scope Z_scope.
Ltac Zify.zify_post_hook ::= Z.div_mod_to_equations.

Definition order_of (e : endian) : byte_order := match e with EBig => BigEndian | ELittle => LittleEndian | ENative => HostOrder end.
Lemma named n f : In (n, f) integer_types -> integer_name n = Some (f_signed f, order_of (f_endian f), 8 * isize_bytes (f_size f)).
Proof. cbn [In integer_types]. intros H. repeat (destruct H as [H|H]; [injection H as <- <-; reflexivity|]). destruct H. Qed.
Lemma named_float n f : In (n, f) float_types -> float_name n = Some (order_of (ff_endian f), 8 * fsize_bytes (ff_size f)).
Proof. cbn [In float_types]. intros H. repeat (destruct H as [H|H]; [injection H as <- <-; reflexivity|]). destruct H. Qed.

Lemma integer_type n f : In (n, f) integer_types -> exists signed o bits, integer_name n = Some (signed, o, bits)
  /\ forall h z out,
     (fits signed bits z -> exists b, write h (MInt f) (VInt z) out = (Ok tt, out ++ b)
        /\ 8 * zlen b = bits /\ forall i, 0 <= i < zlen b -> nth (Z.to_nat i) b 0 = byte_at (high_first (big_host h) o) bits z i)
     /\ (~ fits signed bits z -> write h (MInt f) (VInt z) out = (Err InstructError, out)).
Proof.
  intros H. exists (f_signed f), (order_of (f_endian f)), (8 * isize_bytes (f_size f)). split; [now apply named|]. intros h z out. split.
  - intros F. assert (R : int_representable f z) by exact F. destruct (int_roundtrip h f z R) as (b & L & W & _).
    exists b. split; [apply W|]. split; [now rewrite L|]. intros i Hi. destruct (int_digits h f z [] b i (W []) ltac:(now rewrite <- L)) as [D1 D2].
    cbn [zlen] in D1, D2. change (zlen (@nil Z) + i) with (0 + i) in D1, D2. rewrite Z.add_0_l in D1, D2. unfold byte_at.
    replace (8 * isize_bytes (f_size f) / 8) with (width_in_bytes (f_size f)) by (change (width_in_bytes (f_size f)) with (isize_bytes (f_size f)); lia).
    destruct (f_endian f) eqn:Ee; cbn [order_of high_first].
    + apply D1. now left.
    + apply D2. intros [X|[X _]]; discriminate.
    + destruct h; cbn [big_host]; [apply D2; intros [X|[_ X]]; discriminate|apply D1; right; auto].
  - intros F. apply int_reject. exact F.
Qed.

(** ** Floats *)
Lemma pack32 h f p q out : ff_size f = F32 -> double_to_single p = Ok q ->
  write h (MFloat f) (VFloat p) out = (Ok tt, out ++ (if is_big h (ff_endian f) then rev (le_digits 4 q) else le_digits 4 q)).
Proof. intros S E. cbn [write]. unfold struct_pack_float. rewrite S, E. reflexivity. Qed.
Lemma last_rev {A} (l : list A) d : last (rev l) d = hd d l.
Proof. destruct l as [|x l]; [reflexivity|]. cbn [rev hd]. apply last_last. Qed.
Lemma big_high h e : is_big h e = high_first (big_host h) (order_of e).
Proof. now destruct e, h. Qed.

Lemma finite_range p : finite p -> 0 <= p < 2 ^ 64.
Proof. now intros [H _]. Qed.
Lemma store32 h f p : ff_size f = F32 -> finite p ->
  (Z.abs (float_value p) >= float_one * (2 ^ 128 - 2 ^ 103) /\ forall out, write h (MFloat f) (VFloat p) out = (Err OverflowError, out))
  \/ exists b p', zlen b = 4 /\ (forall out, write h (MFloat f) (VFloat p) out = (Ok tt, out ++ b))
       /\ (forall c pre tail, read h (MFloat f) c (SBytesIO (pre ++ b ++ tail) (zlen pre)) = (Ok (VFloat p'), SBytesIO (pre ++ b ++ tail) (zlen pre + 4)))
       /\ Z.abs (float_value p) < float_one * (2 ^ 128 - 2 ^ 103)
       /\ finite p' /\ p' / 2 ^ 63 = p / 2 ^ 63
       /\ forall x, float_representable f x -> finite x ->
            Z.abs (float_value p' - float_value p) <= Z.abs (float_value x - float_value p)
            /\ (Z.abs (float_value p' - float_value p) = Z.abs (float_value x - float_value p) -> float_value x <> float_value p' ->
                Z.even (low_byte (high_first (big_host h) (order_of (ff_endian f))) b) = true).
Proof.
  intros S F. pose proof (narrow_overflow p F) as Ov. destruct (double_to_single p) as [q|e] eqn:E.
  - right. destruct (narrow_nearest p q F E) as (Bq & Fq & Sq & Nr).
    set (b := if is_big h (ff_endian f) then rev (le_digits 4 q) else le_digits 4 q). exists b, (single_to_double q).
    assert (Lb : zlen b = 4) by (unfold b; destruct (is_big h (ff_endian f)); rewrite ?zlen_rev; unfold zlen; rewrite le_digits_length; reflexivity).
    split; [exact Lb|]. split; [intros out; now apply pack32|]. split.
    { intros c pre tail. cbn [read]. rewrite S. cbn [fsize_bytes]. unfold sbind at 1. rewrite <- Lb.
      rewrite (sread_prefix _ b tail); [|apply mid_ok|apply mid_rest|rewrite Lb; unfold maxsize; lia].
      destruct (Z.ltb_spec (zlen b) (zlen b)); [lia|]. unfold struct_unpack_float. rewrite S. cbn [fsize_bytes]. rewrite Lb. cbn [Z.eqb Pos.eqb].
      assert (V : le_value (if is_big h (ff_endian f) then rev b else b) = q).
      { unfold b. destruct (is_big h (ff_endian f)); rewrite ?rev_involutive, le_value_digits; apply Z.mod_small; exact Bq. }
      rewrite V. unfold sret, slift. cbn [consume]. do 2 f_equal. change (Z.of_nat (List.length b)) with (zlen b). now rewrite Lb. }
    split. { destruct (Z_lt_ge_dec (Z.abs (float_value p)) (float_one * (2 ^ 128 - 2 ^ 103))) as [|G]; [assumption|]. apply Ov in G. discriminate. }
    split; [exact Fq|]. split; [exact Sq|]. intros x Rx Fx. unfold float_representable in Rx. rewrite S in Rx. destruct Rx as (q' & Bq' & ->).
    destruct (Nr q' Bq' Fx) as [N1 N2]. split; [exact N1|]. intros T Ne. specialize (N2 T Ne).
    rewrite <- big_high. unfold b. assert (Lo : hd 0 (le_digits 4 q) = q mod 256) by reflexivity.
    assert (X : low_byte (is_big h (ff_endian f)) (if is_big h (ff_endian f) then rev (le_digits 4 q) else le_digits 4 q) = q mod 256).
    { unfold low_byte. destruct (is_big h (ff_endian f)); [rewrite last_rev|]; exact Lo. }
    rewrite X. clear - N2. rewrite Zeven_mod in N2 |- *. apply Zeq_bool_eq in N2. apply Zeq_is_eq_bool. lia.
  - left. assert (e = OverflowError) as ->.
    { destruct (narrow_finite p F) as (k & M & d & _ & _ & _ & _ & _ & _ & _ & _ & _ & _ & X). rewrite X in E. destruct (_ <=? _); congruence. }
    split; [now apply Ov|]. intros out. cbn [write]. unfold struct_pack_float. rewrite S, E. reflexivity.
Qed.

Lemma float_type n f : In (n, f) float_types -> exists o bits, float_name n = Some (o, bits)
  /\ (bits = 32 -> forall h p, finite p ->
      (Z.abs (float_value p) >= float_one * (2 ^ 128 - 2 ^ 103) /\ forall out, write h (MFloat f) (VFloat p) out = (Err OverflowError, out))
      \/ exists b p', zlen b = 4 /\ (forall out, write h (MFloat f) (VFloat p) out = (Ok tt, out ++ b))
       /\ (forall c pre tail, read h (MFloat f) c (SBytesIO (pre ++ b ++ tail) (zlen pre)) = (Ok (VFloat p'), SBytesIO (pre ++ b ++ tail) (zlen pre + 4)))
       /\ Z.abs (float_value p) < float_one * (2 ^ 128 - 2 ^ 103)
       /\ finite p' /\ p' / 2 ^ 63 = p / 2 ^ 63
       /\ forall x, float_representable f x -> finite x ->
            Z.abs (float_value p' - float_value p) <= Z.abs (float_value x - float_value p)
            /\ (Z.abs (float_value p' - float_value p) = Z.abs (float_value x - float_value p) -> float_value x <> float_value p' ->
                Z.even (low_byte (high_first (big_host h) o) b) = true))
  /\ (bits = 64 -> forall h p out, 0 <= p < 2 ^ 64 -> exists b, write h (MFloat f) (VFloat p) out = (Ok tt, out ++ b)
      /\ zlen b = 8 /\ forall i, 0 <= i < zlen b -> nth (Z.to_nat i) b 0 = byte_at (high_first (big_host h) o) 64 p i).
Proof.
  intros H. exists (order_of (ff_endian f)), (8 * fsize_bytes (ff_size f)). split; [now apply named_float|]. split.
  - intros Hb h p F. assert (S : ff_size f = F32) by (destruct (ff_size f); [reflexivity|discriminate Hb]). exact (store32 h f p S F).
  - intros Hb h p out Hp. assert (S : ff_size f = F64) by (destruct (ff_size f); [discriminate Hb|reflexivity]).
    rewrite <- big_high. cbn [write]. unfold struct_pack_float. rewrite S.
    exists (if is_big h (ff_endian f) then rev (le_digits 8 p) else le_digits 8 p). split; [reflexivity|].
    assert (L : zlen (if is_big h (ff_endian f) then rev (le_digits 8 p) else le_digits 8 p) = 8)
      by (destruct (is_big h (ff_endian f)); rewrite ?zlen_rev; unfold zlen; rewrite le_digits_length; reflexivity).
    split; [exact L|]. rewrite L. intros i Hi. unfold byte_at. change (64 / 8) with 8.
    assert (N : forall j, 0 <= j < 8 -> nth (Z.to_nat j) (le_digits 8 p) 0 = (p / 256 ^ j) mod 256).
    { intros j Hj. rewrite nth_le_digits by lia. now rewrite Z2Nat.id by lia. }
    destruct (is_big h (ff_endian f)).
    + rewrite rev_nth by (rewrite le_digits_length; lia). rewrite le_digits_length.
      replace (8 - Datatypes.S (Z.to_nat i))%nat with (Z.to_nat (8 - 1 - i)) by lia. apply N. lia.
    + now apply N.
Qed.

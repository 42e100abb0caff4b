(** Ints and floats that are equal, as constants and in maps: lemmas for C82. *)
From Verif Require Import Base BaseProofs IntCodec CodecSpec Stream StreamSpec MinMax Marshal FieldSpec FieldFacts ArrayFacts FloatSpec FloatRound IntFloat IntFloatFacts FloatEq.
From Coq Require Import ZArith List Bool String Lia ZifyBool ZifyNat.
Import ListNotations.
Open Scope list_scope.
Open Scope Z_scope.

Lemma eq_num_float z p v : int_eq_float z p = true -> 0 <= p < 2 ^ 64 -> py_eq v (VInt z) = false -> py_eq v (VFloat p) = false.
Proof.
  intros E B N. destruct v; try reflexivity; cbn [py_eq] in *.
  - destruct (int_eq_float z0 p) eqn:E'; [exfalso|reflexivity]. apply int_eq_float_spec in E as [_ E]. apply int_eq_float_spec in E' as [_ E'].
    rewrite E in E'. apply Z.mul_reg_r in E'; [|unfold float_one; vm_compute; congruence]. lia.
  - destruct (negb (float_is_nan pattern)) eqn:N1; [|reflexivity]. destruct (negb (float_is_nan p)); [|reflexivity]. cbn [andb].
    destruct (Z.eqb_spec pattern p) as [->|Np]; [congruence|]. cbn [orb].
    destruct (Z.eqb_spec (pattern mod 2 ^ 63) 0) as [Z1|]; [|reflexivity]. destruct (Z.eqb_spec (p mod 2 ^ 63) 0) as [Z2|]; [exfalso|reflexivity].
    assert (G : forall q, q mod 2 ^ 63 = 0 -> q mod 2 ^ 52 = 0 /\ (q / 2 ^ 52) mod 2 ^ 11 = 0).
    { intros q Q. change (2 ^ 63) with (2 ^ 52 * 2 ^ 11) in Q. rewrite Z.rem_mul_r in Q by (vm_compute; congruence).
      assert (0 <= q mod 2 ^ 52) by (apply Z.mod_pos_bound; reflexivity). assert (0 <= (q / 2 ^ 52) mod 2 ^ 11) by (apply Z.mod_pos_bound; reflexivity).
      change (2 ^ 52) with 4503599627370496 in *. lia. }
    assert (U : forall q, q mod 2 ^ 63 = 0 -> float_finite q = true /\ float_units q = 0).
    { intros q Q. destruct (G q Q) as [Q1 Q2]. unfold float_finite, float_units. rewrite Q1, Q2. cbn [Z.eqb negb]. destruct (q / 2 ^ 63 =? 0); auto. }
    unfold int_eq_float in *. destruct (U _ Z1) as [U1 U2]. destruct (U _ Z2) as [V1 V2]. rewrite U1, U2 in N. rewrite V1, V2 in E. cbn [andb] in *. congruence.
Qed.

Lemma const_int_of_float h f n z cls cctx c a : Z.abs z <= 2 ^ (match ff_size f with F32 => 24 | F64 => 53 end) ->
  exists b, (forall a' out, write_field h (FConst n (MFloat f) (VInt z)) a' out = (Ok tt, out ++ b))
    /\ forall pre tail, read_field h cls cctx (FConst n (MFloat f) (VInt z)) c (SBytesIO (pre ++ b ++ tail) (zlen pre), a)
       = (Ok tt, (SBytesIO (pre ++ b ++ tail) (zlen pre + zlen b), a)).
Proof.
  intros B. destruct (int_exact h f z B) as (b & p & L & W & R & F & V). exists b. split.
  - intros a' out. rewrite const_write. apply W.
  - intros pre tail. rewrite const_read, R, L. cbn [py_eq].
    assert (E : int_eq_float z p = true) by (apply int_eq_float_spec; split; [apply F|exact V]). now rewrite E.
Qed.

Lemma const_by_value h f n k cls cctx c a s p s' : read h (MFloat f) (get_updated_context cctx (VObj cls a) c) s = (Ok (VFloat p), s') ->
  forall r st, read_field h cls cctx (FConst n (MFloat f) (VInt k)) c (s, a) = (r, st) ->
  st = (s', a) /\ (r = Ok tt /\ exponent_field p <> 2047 /\ float_value p = k * float_one
                   \/ r = Err InstructError /\ ~ (exponent_field p <> 2047 /\ float_value p = k * float_one)).
Proof.
  intros R r st. rewrite const_read, R. cbn [py_eq]. pose proof (int_eq_float_spec k p) as S. destruct (int_eq_float k p); cbv iota; intros E.
  - injection E as <- <-. split; [reflexivity|]. left. split; [reflexivity|]. now apply S.
  - injection E as <- <-. split; [reflexivity|]. right. split; [reflexivity|]. intros X. apply S in X. discriminate.
Qed.

Lemma reverse_float tbl : forall seen k z p, injective_map seen tbl = Ok tt -> In (k, VInt z) tbl -> int_eq_float z p = true -> 0 <= p < 2 ^ 64 ->
  find (fun x => py_eq (fst x) (VFloat p)) (map (fun x => (snd x, fst x)) tbl) = Some (VInt z, k).
Proof.
  induction tbl as [|[k0 v] r IH]; intros seen k z p H I E B; [destruct I|]. cbn [map find fst snd].
  cbn [injective_map] in H. destruct (hashable v); [|discriminate]. cbn [negb] in H.
  destruct (passert _) as [[]|]; [|discriminate]. cbn [rbind] in H. destruct I as [I|I].
  - injection I as -> ->. cbn [py_eq]. now rewrite E.
  - rewrite (eq_num_float z p v E B (injective_seen _ _ H v k (VInt z) (or_introl eq_refl) I)). eapply IH; eauto.
Qed.

Lemma read_map h tbl m c s : read h (MMap tbl m) c s = sbind (read h m c) (fun v => slift (map_reverse tbl v)) s.
Proof. reflexivity. Qed.
Lemma write_map h tbl m v out : write h (MMap tbl m) v out = sbind (slift (dict_get tbl v)) (fun w => write h m w) out.
Proof. reflexivity. Qed.
Lemma map_int_of_float h f tbl mm c k z : mk_map tbl (MFloat f) = Ok mm -> dict_ok tbl -> In (k, VInt z) tbl ->
  Z.abs z <= 2 ^ (match ff_size f with F32 => 24 | F64 => 53 end) -> exists enc, roundtrips h mm c k enc.
Proof.
  intros M D I B. destruct (int_exact h f z B) as (b & p & L & W & R & F & V). exists b. apply mk_map_inv in M as [-> Inj]. split.
  - intros out. rewrite write_map. unfold sbind, slift. rewrite (dict_get_in _ _ _ D I). apply W.
  - intros pre tail. rewrite read_map. unfold sbind, slift. rewrite R. unfold map_reverse, dict_get. cbn [hashable].
    rewrite (reverse_float _ _ k z p Inj I (proj2 (int_eq_float_spec z p) (conj (proj2 F) V)) (proj1 F)). now rewrite <- L.
Qed.

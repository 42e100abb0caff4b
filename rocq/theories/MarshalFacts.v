(** Facts behind the properties of sizes, round trips, truncation and failed writes
    (C11-C16, C25, C52). *)
From Verif Require Import Base BaseProofs IntCodec CodecSpec IntCodecProofs FloatProofs
  BitStringIO Stream StreamSpec StreamProofs MinMax Marshal BitFieldSpec BitFieldProofs
  MarshalSpec MarshalInd MarshalRT NumericFacts WriteFacts SizeSpec SizeFacts SimSpec SimFacts.
From Coq Require Import ZArith List Bool String Lia ZifyBool ZifyNat.
Import ListNotations.
Open Scope Z_scope.
Ltac Zify.zify_post_hook ::= Z.div_mod_to_equations.

(** ** MinMax *)
Lemma minmax_interval a b : 0 <= a <= maxsize -> 0 <= b <= maxsize ->
  MinMax a b = if a <=? b then Ok (mkMM a b) else Err AssertionError.
Proof.
  intros A B. unfold MinMax, passert, rbind. destruct (Z.leb_spec a b); auto.
  rewrite Z.max_r, Z.min_l by lia. reflexivity.
Qed.

Lemma minmax_add_interval m1 m2 :
  0 <= mm_min m1 <= mm_max m1 -> 0 <= mm_min m2 <= mm_max m2 ->
  mm_min m1 + mm_min m2 <= maxsize ->
  exists m, mm_add m1 m2 = Ok m
    /\ mm_min m = mm_min m1 + mm_min m2
    /\ mm_max m = Z.min (mm_max m1 + mm_max m2) maxsize
    /\ 0 <= mm_min m <= mm_max m /\ mm_max m <= maxsize.
Proof.
  intros A B L. unfold mm_add, MinMax, passert, rbind.
  replace (mm_min m2 + mm_min m1 <=? mm_max m2 + mm_max m1) with true by lia.
  eexists. split; [reflexivity|]. cbn [mm_min mm_max]. lia.
Qed.

Lemma minmax_above a b : maxsize < a <= b ->
  exists m, MinMax a b = Ok m /\ mm_max m < mm_min m.
Proof.
  intros H. unfold MinMax, passert, rbind. replace (a <=? b) with true by lia.
  eexists. split; [reflexivity|]. cbn [mm_min mm_max]. unfold maxsize in *. lia.
Qed.
Lemma minmax_negative a b : a <= b < 0 ->
  exists m, MinMax a b = Ok m /\ mm_max m < 0 <= mm_min m.
Proof.
  intros H. unfold MinMax, passert, rbind. replace (a <=? b) with true by lia.
  eexists. split; [reflexivity|]. cbn [mm_min mm_max]. unfold maxsize in *. lia.
Qed.

(** ** Sizes *)
Lemma sizeof_exact h m v out out' : fits false m v -> write h m v out = (Ok tt, out') ->
  sizeof m v = Ok (zlen out' - zlen out).
Proof.
  intros F W. destruct (proj1 (size_all h) m false v out out' F W) as (n & L & _ & S & _).
  rewrite S. f_equal. lia.
Qed.

Lemma sizeof_overlong h size p d b out : size < zlen (strip_bytes d p b) -> d <> PNone ->
  exists out', write h (MPadStr size (VBytes p) d) (VBytes b) out = (Ok tt, out')
    /\ zlen out' - zlen out = zlen (strip_bytes d p b)
    /\ sizeof (MPadStr size (VBytes p) d) (VBytes b) = Ok size.
Proof.
  intros L N. exists (out ++ strip_bytes d p b). split; [|split; [rewrite zlen_app; lia|reflexivity]].
  cbn [write]. unfold sbind, slift, _strip.
  destruct d; try tauto; cbn [out_write_value out_write py_len];
    (replace (zlen _ <? size) with false by (symmetry; apply Z.ltb_ge; lia)); reflexivity.
Qed.

Lemma size_bounds h m v out out' mm : fits true m v -> honest m ->
  write h m v out = (Ok tt, out') -> min_max m = Ok mm ->
  within (zlen out' - zlen out) mm.
Proof.
  intros F Ho W M. destruct (proj1 (size_all h) m true v out out' F W) as (n & L & _ & S & B).
  replace (zlen out' - zlen out) with n by lia. auto.
Qed.

Lemma fixed_size_exact h m v out out' mm : fits true m v -> honest m ->
  write h m v out = (Ok tt, out') -> min_max m = Ok mm ->
  mm_is_fixed mm = true -> mm_is_unbounded mm = false ->
  zlen out' - zlen out = mm_min mm.
Proof.
  intros F Ho W M X U. pose proof (size_bounds _ _ _ _ _ _ F Ho W M) as [A [B|B]]; [|congruence].
  unfold mm_is_fixed in X. lia.
Qed.

(** A string with a constant number of bytes reports a size of 0. *)
Lemma const_size_string_bounds h n b out : bytes_ok b -> zlen b = n ->
  write h (MVarStr (MConst (VInt n)) (VBytes [0]) PNone) (VBytes b) out = (Ok tt, out ++ b)
  /\ min_max (MVarStr (MConst (VInt n)) (VBytes [0]) PNone) = Ok (mkMM 0 0).
Proof. intros B L. split; reflexivity. Qed.

(** The bounds of a key selector are the sums of the bounds of the alternatives. *)
Lemma key_selector_bounds key k m1 m2 mm1 mm2 mm :
  min_max m1 = Ok mm1 -> min_max m2 = Ok mm2 ->
  0 <= mm_min mm1 <= mm_max mm1 -> 0 <= mm_min mm2 <= mm_max mm2 ->
  mm_max mm1 + mm_max mm2 <= maxsize ->
  min_max (MSel key [(k, m1)] (Some m2)) = Ok mm ->
  mm = mkMM (mm_min mm1 + mm_min mm2) (mm_max mm1 + mm_max mm2).
Proof.
  intros E1 E2 A1 A2 L. cbn [min_max]. rewrite E1, E2. cbn [rbind mm_sum].
  unfold mm_add, MinMax, passert, rbind. cbn [ZERO_MIN_MAX mm_min mm_max].
  replace (mm_min mm1 + 0 <=? mm_max mm1 + 0) with true by lia. cbn [mm_min mm_max].
  match goal with |- context [?a <=? ?b] => destruct (a <=? b) eqn:X end; [|lia].
  intros Q. injection Q as <-. f_equal; lia.
Qed.

(** ** Round trip *)
Lemma canon_roundtrip h t m c v : canon h t m c v -> exists enc, RT h t m c v enc.
Proof. apply (proj1 (roundtrip_all h)). Qed.

Lemma struct_roundtrip h m c v : canon h true m c v ->
  exists enc, write_to_string h m v = Ok enc /\ create_from_string h m enc c = Ok v.
Proof.
  intros C. destruct (canon_roundtrip _ _ _ _ _ C) as (enc & R). exists enc. split.
  - unfold write_to_string. now rewrite (proj1 R).
  - unfold create_from_string. destruct R as (_ & _ & Rd).
    rewrite (Rd (stream_of enc) []); auto.
    + apply stream_of_ok.
    + rewrite app_nil_r. apply stream_of_ok.
Qed.

(** Structs of plain fields, objects built from keyword arguments. *)
Definition plain_fields (defs : list (name * marshal * value)) : list field :=
  map (fun p => FField (fst (fst p)) (snd (fst p)) (snd p)) defs.
Definition def_name (p : name * marshal * value) : name := fst (fst p).

(** The value a keyword construction gives to a field. *)
Definition kw_value (kwargs : attrs) (p : name * marshal * value) : value :=
  match lookup kwargs (def_name p) with Some v => v | None => snd p end.

Lemma lookup_app {A} (l l' : list (name * A)) n :
  lookup (l ++ l') n = match lookup l n with Some v => Some v | None => lookup l' n end.
Proof. induction l as [|[k v] l IH]; cbn; auto. now destruct (String.eqb k n). Qed.
Lemma lookup_none {A} (l : list (name * A)) n : lookup l n = None <-> ~ In n (map fst l).
Proof.
  induction l as [|[k v] l IH]; cbn; [tauto|]. destruct (String.eqb_spec k n); subst.
  - split; [discriminate|tauto].
  - rewrite IH. tauto.
Qed.
Lemma set_attr_new a n v : lookup a n = None -> set_attr a n v = a ++ [(n, v)].
Proof.
  induction a as [|[k w] a IH]; cbn; auto. destruct (String.eqb k n); [discriminate|].
  intros H. now rewrite IH.
Qed.
Lemma set_attr_mid l n w r v : ~ In n (map fst l) ->
  set_attr (l ++ (n, w) :: r) n v = l ++ (n, v) :: r.
Proof.
  induction l as [|[k x] l IH]; cbn; intros H; [now rewrite String.eqb_refl|].
  destruct (String.eqb_spec k n); [tauto|]. f_equal. apply IH. tauto.
Qed.
Lemma lookup_mid {A} (l : list (name * A)) n w r : ~ In n (map fst l) ->
  lookup (l ++ (n, w) :: r) n = Some w.
Proof.
  intros H. rewrite lookup_app. rewrite (proj2 (lookup_none l n)) by auto. cbn.
  now rewrite String.eqb_refl.
Qed.

Lemma class_attrs_plain defs : class_attrs (plain_fields defs) = [].
Proof. unfold class_attrs. induction defs; cbn; auto. Qed.

Lemma new_attrs_plain defs kwargs : NoDup (map def_name defs) ->
  new_attrs (plain_fields defs) kwargs = map (fun p => (def_name p, kw_value kwargs p)) defs.
Proof.
  intros N. unfold new_attrs. rewrite class_attrs_plain.
  assert (G : forall a, (forall n, In n (map fst a) -> ~ In n (map def_name defs)) ->
    fold_left (prepare_instance kwargs) (plain_fields defs) a
    = a ++ map (fun p => (def_name p, kw_value kwargs p)) defs).
  { induction defs as [|p defs IH]; intros a D; [now rewrite app_nil_r|].
    cbn [plain_fields map fold_left prepare_instance]. fold (plain_fields defs).
    inversion N as [|x y Nx Ny]; subst.
    assert (L : lookup a (def_name p) = None).
    { apply lookup_none. intros X. apply (D _ X). left. auto. }
    assert (E : prepare_field kwargs a (fst (fst p)) (snd p) = a ++ [(def_name p, kw_value kwargs p)]).
    { unfold prepare_field, kw_value. fold (def_name p). rewrite L.
      destruct (lookup kwargs (def_name p)); now apply set_attr_new. }
    rewrite E, IH; auto.
    - now rewrite <- app_assoc.
    - intros n X. rewrite map_app in X. apply in_app_or in X as [X|X].
      + intros Y. apply (D _ X). right. auto.
      + cbn in X. destruct X as [<-|[]]. auto. }
  apply G. intros n [].
Qed.

Lemma plain_canon h t cls cctx c (val : name * marshal * value -> value) a defs :
  NoDup (map def_name defs) ->
  (forall p, In p defs -> forall c, canon h t (snd (fst p)) c (val p)) ->
  (forall p, In p defs -> lookup a (def_name p) = Some (val p)) ->
  forall l, (forall n, In n (map fst l) -> ~ In n (map def_name defs)) ->
  canon_fields h t cls cctx c a (l ++ map (fun p => (def_name p, val p)) defs)
    (plain_fields defs) (l ++ map (fun p => (def_name p, snd p)) defs).
Proof.
  intros N C L. induction defs as [|p defs IH]; intros l D; [reflexivity|].
  cbn [plain_fields map canon_fields]. fold (plain_fields defs).
  inversion N as [|x y Nx Ny]; subst.
  exists ((l ++ [(def_name p, val p)]) ++ map (fun p => (def_name p, snd p)) defs). split.
  - cbn [canon_field]. fold (def_name p).
    assert (V : field_value (def_name p) (snd p) a = val p).
    { unfold field_value. rewrite L by (left; auto). auto. }
    rewrite V. split; [apply C; left; auto|].
    rewrite set_attr_mid, <- app_assoc; auto. intros X. apply (D _ X). left. auto.
  - replace (l ++ (def_name p, val p) :: map (fun p0 => (def_name p0, val p0)) defs)
      with ((l ++ [(def_name p, val p)]) ++ map (fun p0 => (def_name p0, val p0)) defs)
      by (rewrite <- app_assoc; reflexivity).
    apply IH; auto.
    + intros q Q. apply C. right. auto.
    + intros q Q. apply L. right. auto.
    + intros n X. rewrite map_app in X. apply in_app_or in X as [X|X].
      * intros Y. apply (D _ X). right. auto.
      * cbn in X. destruct X as [<-|[]]. auto.
Qed.

Lemma keyword_lookup defs (val : name * marshal * value -> value) p :
  NoDup (map def_name defs) -> In p defs ->
  lookup (map (fun p => (def_name p, val p)) defs) (def_name p) = Some (val p).
Proof.
  induction defs as [|q defs IH]; intros N I; [destruct I|].
  inversion N as [|x y Nx Ny]; subst. cbn [map lookup fst snd].
  destruct I as [->|I]; [now rewrite String.eqb_refl|].
  destruct (String.eqb_spec (def_name q) (def_name p)) as [E|E]; [|now apply IH].
  exfalso. apply Nx. rewrite E. now apply in_map.
Qed.

Lemma keyword_object_roundtrip h cls cctx c defs kwargs :
  NoDup (map def_name defs) ->
  (forall p, In p defs -> forall c, canon h true (snd (fst p)) c (kw_value kwargs p)) ->
  let m := MStruct cls cctx (plain_fields defs) in
  let obj := VObj cls (new_attrs (plain_fields defs) kwargs) in
  exists enc, write_to_string h m obj = Ok enc /\ create_from_string h m enc c = Ok obj
    /\ forall p, In p defs -> py_getattr obj (def_name p) = Ok (kw_value kwargs p).
Proof.
  intros N C m obj.
  assert (E : new_attrs (plain_fields defs) kwargs = map (fun p => (def_name p, kw_value kwargs p)) defs)
    by now apply new_attrs_plain.
  assert (E0 : new_attrs (plain_fields defs) [] = map (fun p => (def_name p, snd p)) defs).
  { rewrite new_attrs_plain by auto. reflexivity. }
  assert (X : canon h true m c obj).
  { apply canon_struct. exists (new_attrs (plain_fields defs) kwargs). split; [reflexivity|].
    rewrite E0. rewrite E.
    exact (plain_canon h true cls cctx c (kw_value kwargs) _ defs N C
             (fun p I => keyword_lookup defs (kw_value kwargs) p N I) [] (fun n (I : In n []) => match I with end)). }
  destruct (struct_roundtrip _ _ _ _ X) as (enc & W & R). exists enc. split; [auto|]. split; [auto|].
  intros p I. unfold obj, py_getattr. rewrite E. now rewrite keyword_lookup.
Qed.

(** ** Consumption, truncation, continuation *)
Lemma exact_consumption h m c v : canon h true m c v ->
  exists enc, (forall out, write h m v out = (Ok tt, out ++ enc))
    /\ forall pre tail, read h m c (SBytesIO (pre ++ enc ++ tail) (zlen pre))
         = (Ok v, SBytesIO (pre ++ enc ++ tail) (zlen pre + zlen enc)).
Proof.
  intros C. destruct (canon_roundtrip _ _ _ _ _ C) as (enc & R). exists enc. split; [apply R|].
  intros pre tail. exact (RT_mid h true m c v enc pre tail R).
Qed.

Lemma consume_stream_of k d : consume k (stream_of d) = SBytesIO d (Z.of_nat k).
Proof. reflexivity. Qed.

Lemma truncated_rejected h m c v : canon h true m c v -> portable h true false m ->
  exists enc, (forall out, write h m v out = (Ok tt, out ++ enc))
    /\ (zlen enc <= maxsize ->
        forall p q, enc = p ++ q -> q <> [] -> exists e s, read h m c (stream_of p) = (Err e, s)).
Proof.
  intros C P. destruct (canon_roundtrip _ _ _ _ _ C) as (enc & W & B & Rd). exists enc. split; [auto|].
  intros L p q E Q. destruct (read h m c (stream_of p)) as [[v'|e] s'] eqn:R; [|eauto]. exfalso.
  destruct (proj1 (sim_all h) m true false q (stream_of p) (stream_of enc) c v' s' P) as (k & S & K & R'); auto.
  { subst enc. apply bytes_ok_app in B as [B1 B2]. rewrite zlen_app in L. pose proof (zlen_nonneg q).
    split; [auto|]. split; [apply stream_of_ok|]. split; [apply stream_of_ok|].
    split; [reflexivity|]. split; [reflexivity|]. split; [cbn [rest stream_of Z.to_nat skipn]; lia|exact B1]. }
  rewrite (Rd (stream_of enc) []) in R'; auto.
  2: apply stream_of_ok.
  2: rewrite app_nil_r; apply stream_of_ok.
  rewrite !consume_stream_of in R'. injection R' as _ R'. apply Nat2Z.inj in R'.
  cbn [rest stream_of Z.to_nat skipn] in K. subst enc. rewrite app_length in R'.
  destruct q; [tauto|]. cbn [List.length] in R'. lia.
Qed.

Lemma read_ignores_rest h m c d pos v s' : portable h true false m ->
  0 <= pos <= zlen d -> zlen d <= maxsize -> bytes_ok d ->
  read h m c (SBytesIO d pos) = (Ok v, s') ->
  exists pos', s' = SBytesIO d pos' /\ pos <= pos' <= zlen d
    /\ forall q, read h m c (SBytesIO (d ++ q) pos) = (Ok v, SBytesIO (d ++ q) pos').
Proof.
  intros P O L B R.
  assert (RR : zlen (rest (SBytesIO d pos)) = zlen d - pos).
  { cbn [rest]. rewrite zlen_skipn. lia. }
  assert (D : forall q, same_data true false q (SBytesIO d pos) (SBytesIO (d ++ q) pos)).
  { intros q. split; [auto|]. split; [exact O|].
    split. { cbn [stream_ok]. rewrite zlen_app. pose proof (zlen_nonneg q). lia. }
    split. { cbn [rest]. rewrite skipn_app. unfold zlen in O.
             now replace (Z.to_nat pos - List.length d)%nat with 0%nat by lia. }
    split; [reflexivity|]. split; [lia|]. now apply bytes_ok_skipn. }
  destruct (proj1 (sim_all h) m true false [] _ _ c v s' P (D []) R) as (k & S & K & _).
  exists (pos + Z.of_nat k). split; [exact S|].
  assert (K' : Z.of_nat k <= zlen d - pos) by (rewrite <- RR; unfold zlen; lia).
  split; [lia|]. intros q.
  destruct (proj1 (sim_all h) m true false q _ _ c v s' P (D q) R) as (k' & S' & K1 & R').
  rewrite S in S'. cbn [consume] in S'. injection S' as S'.
  assert (k' = k) by lia. subst k'. exact R'.
Qed.

(** Padding is skipped without looking whether it is there. *)
Lemma padding_short h size ch c d pos : 0 <= size <= maxsize -> 0 <= pos <= zlen d ->
  zlen d - pos < size ->
  read h (MBytePad size ch) c (SBytesIO d pos) = (Ok VNone, SBytesIO d (zlen d)).
Proof.
  intros Hs O L. cbn [read]. unfold sbind, sread, sread_.
  replace ((size <? - maxsize - 1) || (maxsize <? size)) with false by (unfold maxsize in *; lia).
  replace (size <? 0) with false by lia.
  unfold sret. f_equal. f_equal. rewrite zlen_firstn, zlen_skipn. unfold zlen in *. lia.
Qed.

(** Unsigned length prefixes are never negative. *)
Lemma unsigned_never_negative h f : f_signed f = false -> never_negative h (MInt f).
Proof.
  intros U c s z s' O B E. cbn [read] in E. apply sbind_inv in E as (b & s1 & E1 & E).
  destruct (zlen b <? isize_bytes (f_size f)) eqn:X; [discriminate|].
  destruct (struct_unpack_int h f b) as [z'|e] eqn:Y; [|discriminate].
  injection E as <- _.
  destruct (sread_any _ O _ _ _ E1) as (k & _ & _ & ->).
  assert (L : zlen (firstn k (rest s)) = isize_bytes (f_size f)).
  { unfold struct_unpack_int in Y. destruct (Z.eqb_spec (zlen (firstn k (rest s))) (isize_bytes (f_size f)));
      [auto|discriminate]. }
  destruct (struct_unpack_int_ok h f _ L (bytes_ok_firstn _ _ B)) as (v & E2 & R & _).
  rewrite E2 in Y. injection Y as <-. unfold in_int_range in R. rewrite U in R. apply R.
Qed.

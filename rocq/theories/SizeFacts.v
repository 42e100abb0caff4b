(** Sizes: [sizeof] agrees with writing, and lies within [min_max] (C11-C13). *)
From Verif Require Import Base BaseProofs IntCodec IntCodecProofs FloatProofs BitStringIO Stream MinMax
  Marshal MarshalInd MarshalSpec BitFieldProofs WriteFacts SizeSpec.
From Coq Require Import ZArith List Bool String Lia ZifyBool ZifyNat.
Import ListNotations.
Open Scope Z_scope.
Ltac Zify.zify_post_hook ::= Z.div_mod_to_equations.

Fixpoint fits_fields (st : bool) (fs : list field) (a : attrs) : Prop :=
  match fs with [] => True | f :: r => fits_field st f a /\ fits_fields st r a end.
Fixpoint honest_fields (fs : list field) : Prop :=
  match fs with [] => True | f :: r => honest_field f /\ honest_fields r end.
Lemma fits_struct st cls cctx fs v :
  fits st (MStruct cls cctx fs) v <-> (forall a, v = VObj cls a -> fits_fields st fs a).
Proof.
  assert (E : forall a, (fix go (fs : list field) : Prop :=
           match fs with [] => True | f :: r => fits_field st f a /\ go r end) fs <-> fits_fields st fs a).
  { intros a. induction fs; cbn; [tauto|]. rewrite IHfs. tauto. }
  cbn [fits]. split; intros H a Ea; [exact (proj1 (E a) (H a Ea))|exact (proj2 (E a) (H a Ea))].
Qed.
Lemma fits_group st fs a : fits_field st (FGroup fs) a <-> fits_fields st fs a.
Proof. cbn [fits_field]. induction fs; cbn; [tauto|]. rewrite IHfs. tauto. Qed.
Lemma honest_struct cls cctx fs : honest (MStruct cls cctx fs) <-> honest_fields fs.
Proof. cbn [honest]. induction fs; cbn; [tauto|]. rewrite IHfs. tauto. Qed.
Lemma honest_group fs : honest_field (FGroup fs) <-> honest_fields fs.
Proof. cbn [honest_field]. induction fs; cbn; [tauto|]. rewrite IHfs. tauto. Qed.

(** ** MinMax arithmetic *)
Lemma MinMax_inv a b mm : MinMax a b = Ok mm ->
  a <= b /\ mm = mkMM (Z.max 0 a) (Z.min b maxsize).
Proof.
  unfold MinMax, passert. destruct (a <=? b) eqn:E; [|discriminate]. intros H. injection H as <-.
  split; [lia|auto].
Qed.
Lemma maxsize_pos : 0 < maxsize. Proof. now unfold maxsize. Qed.

Lemma within_MinMax n a b mm : MinMax a b = Ok mm -> a <= n -> 0 <= n -> n <= b \/ maxsize <= b -> within n mm.
Proof.
  intros E ? ? ?. apply MinMax_inv in E as [_ ->]. unfold within, mm_is_unbounded. cbn [mm_min mm_max]. lia.
Qed.

Definition nonneg_mm (mm : minmax) : Prop := 0 <= mm_min mm /\ 0 <= mm_max mm.
Lemma nonneg_MinMax a b mm : MinMax a b = Ok mm -> 0 <= b -> nonneg_mm mm.
Proof. intros E ?. apply MinMax_inv in E as [_ ->]. pose proof maxsize_pos. split; cbn [mm_min mm_max]; lia. Qed.
Lemma nonneg_add a b mm : mm_add a b = Ok mm -> nonneg_mm a -> nonneg_mm b -> nonneg_mm mm.
Proof. intros E [] []. eapply nonneg_MinMax; [apply E|lia]. Qed.
Lemma nonneg_sum l : forall acc mm, mm_sum acc l = Ok mm -> nonneg_mm acc -> Forall nonneg_mm l -> nonneg_mm mm.
Proof.
  induction l as [|x l IH]; cbn; intros acc mm E A F; [now injection E as <-|].
  inversion F; subst. destruct (mm_add acc x) eqn:Ea; [|discriminate]. cbn in E.
  eapply IH; eauto. eapply nonneg_add; eauto.
Qed.

Lemma within_add a b mm x y : mm_add a b = Ok mm -> within x a -> within y b ->
  nonneg_mm a -> nonneg_mm b -> within (x + y) mm.
Proof.
  intros E [A1 A2] [B1 B2] [] []. eapply within_MinMax; [apply E|lia..|].
  unfold mm_is_unbounded in *. lia.
Qed.
Lemma within_sum l sizes : Forall2 within sizes l -> Forall nonneg_mm l -> forall acc mm x,
  mm_sum acc l = Ok mm -> within x acc -> nonneg_mm acc -> within (x + fold_left Z.add sizes 0) mm.
Proof.
  induction 1 as [|y b sizes l Hy _ IH]; intros F acc mm x E W N.
  - cbn in *. injection E as <-. now rewrite Z.add_0_r.
  - inversion F; subst. cbn [mm_sum] in E. destruct (mm_add acc b) eqn:Ea; [|discriminate]. cbn in E.
    rewrite sum_cons, Z.add_assoc. eapply IH; eauto using within_add, nonneg_add.
Qed.
Lemma within_zero : within 0 ZERO_MIN_MAX.
Proof. split; cbn; lia. Qed.

Lemma min_max_fields_inv fs l : min_max_fields fs = Ok l -> Forall2 (fun f mm => min_max_field f = Ok mm) fs l.
Proof.
  revert l; induction fs as [|f r IH]; cbn; intros l E; [injection E as <-; constructor|].
  destruct (min_max_field f) eqn:Ef; [|discriminate]. cbn in E.
  destruct (min_max_fields r) eqn:Er; [|discriminate]. cbn in E. injection E as <-. constructor; auto.
Qed.
Lemma honest_fields_forall fs : honest_fields fs <-> Forall honest_field fs.
Proof. induction fs; cbn; [split; auto|]. rewrite IHfs. split; [intros []; auto|]. now inversion 1. Qed.
Lemma fits_fields_forall st fs a : fits_fields st fs a <-> Forall (fun f => fits_field st f a) fs.
Proof. induction fs; cbn; [split; auto|]. rewrite IHfs. split; [intros []; auto|]. now inversion 1. Qed.

Lemma Forall_Forall2_nonneg (fs : list field) l :
  Forall (fun f => honest_field f -> forall mm, min_max_field f = Ok mm -> nonneg_mm mm) fs ->
  Forall honest_field fs -> Forall2 (fun f mm => min_max_field f = Ok mm) fs l -> Forall nonneg_mm l.
Proof.
  intros F H E. revert F H.
  induction E as [|f mm fs l Ef _ IH]; intros F G; constructor; inversion F; inversion G; subst; auto.
Qed.

Lemma isize_pow s : 0 < isize_bytes s <= 8. Proof. destruct s; cbn; lia. Qed.

Ltac ok E := match type of E with
  | rbind ?r _ = Ok _ => let Ev := fresh "E" in destruct r eqn:Ev in E; [|discriminate E]; cbn [rbind] in E
  end.

Lemma shl_inv n x : py_shl1_big n = Ok x -> 0 <= n /\ x = 2 ^ n.
Proof.
  unfold py_shl1_big. destruct (n <? 0) eqn:A; [discriminate|]. destruct (_ <? n); [discriminate|].
  intros E. injection E as <-. split; [lia|auto].
Qed.

Lemma honest_nonneg_all :
  (forall m, honest m -> forall mm, min_max m = Ok mm -> nonneg_mm mm)
  /\ (forall f, honest_field f -> forall mm, min_max_field f = Ok mm -> nonneg_mm mm).
Proof.
  apply marshal_field_ind; intros; cbn [min_max min_max_field] in *.
  - eapply nonneg_MinMax; eauto. pose proof (isize_pow (f_size f)). lia.
  - eapply nonneg_MinMax; eauto. pose proof (fsize_bytes_pos (ff_size f)). lia.
  - eapply nonneg_MinMax; eauto. lia.
  - eapply nonneg_MinMax; eauto. lia.
  - eapply nonneg_MinMax; eauto. lia.
  - destruct H0 as [f ->]. ok H1. ok H1. apply shl_inv in E0 as [? ->].
    assert (0 < 2 ^ (mm_max a * 8)) by (apply Z.pow_pos_nonneg; lia).
    eapply nonneg_MinMax; eauto. lia.
  - eapply nonneg_MinMax; eauto.
  - eapply nonneg_MinMax; eauto.
  - destruct H1 as [[f ->] Hel]. ok H2. ok H2. ok H2. apply shl_inv in E1 as [? ->].
    assert (0 < 2 ^ (mm_max a * 8)) by (apply Z.pow_pos_nonneg; lia).
    pose proof (H0 Hel _ E0) as []. eapply nonneg_MinMax; eauto. nia.
  - destruct H0 as [Hn Hel]. ok H1. pose proof (H Hel _ E) as []. eapply nonneg_MinMax; eauto. nia.
  - destruct H1 as [[f ->] Hel]. ok H2. ok H2. ok H2. apply shl_inv in E1 as [? ->].
    assert (0 < 2 ^ (mm_max a * 8)) by (apply Z.pow_pos_nonneg; lia).
    pose proof (H0 Hel _ E0) as []. eapply nonneg_MinMax; eauto. nia.
  - ok H1. destruct (H H0 _ E). eapply nonneg_MinMax; eauto.
  - change (min_max (MStruct cls cctx fs) = Ok mm) in H1. rewrite min_max_struct in H1. ok H1.
    rewrite honest_struct, honest_fields_forall in H0. apply min_max_fields_inv in E.
    eapply nonneg_sum; eauto using Forall_Forall2_nonneg. split; cbn; lia.
  - contradiction.
  - injection H1 as <-. auto.
  - eauto.
  - eauto.
  - eauto.
  - ok H1. destruct (H H0 _ E). eapply nonneg_MinMax; eauto.
  - change (min_max_field (FGroup fs) = Ok mm) in H1. rewrite min_max_group in H1. ok H1.
    rewrite honest_group, honest_fields_forall in H0. apply min_max_fields_inv in E.
    eapply nonneg_sum; eauto using Forall_Forall2_nonneg. split; cbn; lia.
  - eapply nonneg_MinMax; eauto.
  - eapply nonneg_MinMax; eauto.
Qed.

(** ** Bit containers keep their size *)
Definition keeps_len {A} (m : stM bsio A) : Prop :=
  forall s r s', m s = (r, s') -> zlen (bs_val s') = zlen (bs_val s).
Lemma kl_bind {A B} (m : stM bsio A) (f : A -> stM bsio B) :
  keeps_len m -> (forall a, keeps_len (f a)) -> keeps_len (sbind m f).
Proof.
  intros M F s r s' E. unfold sbind in E. destruct (m s) as [[a|e] s1] eqn:Em.
  - rewrite (F a _ _ _ E). eauto.
  - injection E as _ <-. eauto.
Qed.
Lemma kl_slift {A} (r : res A) : keeps_len (slift r).
Proof. intros s x s' E. now injection E as _ <-. Qed.
Lemma kl_sret {A} (a : A) : keeps_len (sret a).
Proof. intros s x s' E. now injection E as _ <-. Qed.
Lemma kl_or byte_i x : keeps_len (bs_or_byte byte_i x).
Proof.
  intros s r s'. unfold bs_or_byte, sbind, sget, slift, sput, ba_set, py_nth.
  destruct (py_index (bs_val s) byte_i) as [k|]; [|intros E; now injection E as _ <-].
  destruct (nth_error (bs_val s) k); [|intros E; now injection E as _ <-].
  destruct (is_byteb _); intros E; injection E as _ <-; auto. cbn [bs_val]. apply zlen_list_upd.
Qed.
Lemma kl_loop ns : forall byte_i v n, keeps_len (bs_write_loop ns byte_i v n).
Proof.
  induction ns as [|k ns IH]; intros; cbn [bs_write_loop]; [apply kl_sret|].
  apply kl_bind; [apply kl_slift|]. intros. apply kl_bind; [apply kl_or|]. auto.
Qed.
Lemma kl_write v n : keeps_len (bs_write v n).
Proof.
  intros s r s' E. unfold bs_write in E. unfold sbind at 1, sget at 1 in E.
  destruct (_ >? _); [now injection E as _ <-|]. revert E. 
  match goal with |- ?m s = _ -> _ => cut (keeps_len m); [intros K; apply K|] end.
  apply kl_bind.
  - destruct (negb _); [|apply kl_loop]. apply kl_bind; [apply kl_slift|]. intros.
    apply kl_bind; [apply kl_or|]. intros. apply kl_loop.
  - intros _ s0 r0 s0' E. unfold sbind, sget, sput in E. now injection E as _ <-.
Qed.
Lemma kl_seek p : keeps_len (bs_seek p).
Proof. intros s r s' E. unfold bs_seek, sbind, sget, sput, slift in E. now injection E as _ <-. Qed.
Lemma kl_pos_write sl : forall z, keeps_len (bm_pos_write sl z).
Proof.
  induction sl as [|[x y] sl IH]; intros z; cbn [bm_pos_write]; [apply kl_sret|].
  apply kl_bind; [apply kl_seek|intros]. apply kl_bind; [apply kl_slift|intros].
  apply kl_bind; [apply kl_write|auto].
Qed.
Lemma kl_bm_write m : forall v, keeps_len (bm_write m v).
Proof.
  induction m; intros v; cbn [bm_write]; try (apply kl_bind; [apply kl_slift|intros]);
    auto using kl_write, kl_pos_write.
Qed.
Lemma kl_bitfields a bs : keeps_len (sforeach bs (write_bitfield a)).
Proof.
  induction bs; cbn; [apply kl_sret|]. apply kl_bind; auto. apply kl_bm_write.
Qed.
Lemma bits_write_size size a bs out out' :
  write_bit_container size a bs out = (Ok tt, out') -> zlen out' = zlen out + size /\ 0 <= size.
Proof.
  unfold write_bit_container, sbind, slift, bs_new_size. destruct (size <? 0) eqn:Z0; [discriminate|].
  destruct (sforeach bs (write_bitfield a) _) as [[u|e] b1] eqn:E; [|discriminate].
  intros W. injection W as <-. rewrite zlen_app. apply kl_bitfields in E. cbn [bs_val] in E.
  rewrite zlen_repeat in E. unfold bs_getvalue. lia.
Qed.

(** ** The main induction *)
Section Sizes.
Variable h : host.

Definition size_law (m : marshal) (v : value) (st : bool) (n : Z) : Prop :=
  sizeof m v = Ok n
  /\ (st = true -> honest m -> forall mm, min_max m = Ok mm -> within n mm).
Definition Sm (m : marshal) : Prop := forall st v out out',
  fits st m v -> write h m v out = (Ok tt, out') ->
  exists n, zlen out' = zlen out + n /\ 0 <= n /\ size_law m v st n.
Definition Sf (f : field) : Prop := forall st a out out',
  fits_field st f a -> write_field h f a out = (Ok tt, out') ->
  exists n, zlen out' = zlen out + n /\ 0 <= n /\ sizeof_field f a = Ok n
    /\ (st = true -> honest_field f -> forall mm, min_max_field f = Ok mm -> within n mm).

Lemma sbind_Ok_inv {S A B} (m : stM S A) (f : A -> stM S B) s b s' :
  sbind m f s = (Ok b, s') -> exists a s1, m s = (Ok a, s1) /\ f a s1 = (Ok b, s').
Proof. unfold sbind. destruct (m s) as [[a|e] s1]; [eauto|discriminate]. Qed.
Lemma slift_Ok_inv {S A} (r : res A) (s : S) a s' : slift r s = (Ok a, s') -> r = Ok a /\ s' = s.
Proof. unfold slift. intros E. injection E as -> ->. auto. Qed.

Lemma size_list st el l : Sm el -> Forall (fits st el) l -> forall out out',
  sforeach l (write h el) out = (Ok tt, out') ->
  exists sizes, rmap_list (sizeof el) l = Ok sizes
    /\ zlen out' = zlen out + fold_left Z.add sizes 0
    /\ 0 <= fold_left Z.add sizes 0 /\ zlen sizes = zlen l
    /\ (st = true -> honest el -> forall mm, min_max el = Ok mm -> Forall (fun n => within n mm) sizes).
Proof.
  intros P. induction 1 as [|x l Hx _ IH]; intros out out' E.
  - injection E as <-. exists []. cbn. repeat split; auto; lia.
  - cbn [sforeach] in E. apply sbind_Ok_inv in E as ([] & o1 & E1 & E2).
    destruct (P _ _ _ _ Hx E1) as (n & L & N & S1 & S2).
    destruct (IH _ _ E2) as (sizes & R & L2 & N2 & Z2 & W2).
    exists (n :: sizes). cbn [rmap_list]. rewrite S1, R. cbn [rbind]. rewrite sum_cons, !zlen_cons.
    repeat split; auto; try lia. all: intros; constructor; eauto.
Qed.

Lemma size_fields st a fs : Forall Sf fs -> fits_fields st fs a -> forall out out',
  write_fields h fs a out = (Ok tt, out') ->
  exists sizes, sizeof_fields fs a = Ok sizes
    /\ zlen out' = zlen out + fold_left Z.add sizes 0 /\ 0 <= fold_left Z.add sizes 0
    /\ (st = true -> honest_fields fs -> forall l, min_max_fields fs = Ok l -> Forall2 within sizes l).
Proof.
  induction 1 as [|f fs Hf _ IH]; intros F out out' E.
  - injection E as <-. exists []. cbn. repeat split; auto; try lia.
    all: try (intros _ _ l E; injection E as <-; constructor).
  - cbn [write_fields] in E. apply sbind_Ok_inv in E as ([] & o1 & E1 & E2). destruct F as [F1 F2].
    destruct (Hf _ _ _ _ F1 E1) as (n & L & N & S1 & S2).
    destruct (IH F2 _ _ E2) as (sizes & R & L2 & N2 & W2).
    exists (n :: sizes). cbn [sizeof_fields]. rewrite S1, R. cbn [rbind]. rewrite sum_cons.
    repeat split; auto; try lia. intros T [H1 H2] l El. cbn [min_max_fields] in El.
    ok El. ok El. injection El as <-. constructor; eauto.
Qed.

Lemma fields_within st fs sizes mm :
  (st = true -> honest_fields fs -> forall l, min_max_fields fs = Ok l -> Forall2 within sizes l) ->
  st = true -> honest_fields fs -> (let* l := min_max_fields fs in mm_sum ZERO_MIN_MAX l) = Ok mm ->
  within (fold_left Z.add sizes 0) mm.
Proof.
  intros W T H E. ok E. specialize (W T H _ E0).
  rewrite <- (Z.add_0_l (fold_left _ _ _)). eapply within_sum; eauto using within_zero.
  - apply min_max_fields_inv in E0. apply (Forall_Forall2_nonneg fs); auto.
    + apply Forall_forall. intros f _. apply (proj2 honest_nonneg_all).
    + now apply honest_fields_forall.
  - split; cbn; lia.
Qed.

Lemma prefix_size sz n out out' : size_prefix sz -> write h sz (VInt n) out = (Ok tt, out') ->
  exists k, zlen out' = zlen out + k /\ 0 <= k /\ (forall v, sizeof sz v = Ok k)
    /\ ((exists f, sz = MInt f) -> forall mm, min_max sz = Ok mm ->
         mm_min mm = k /\ mm_max mm = k /\ 0 < k /\ n < 2 ^ (mm_max mm * 8)).
Proof.
  destruct sz; try contradiction; intros _ E; cbn [write] in E.
  - destruct (struct_pack_int h f n) eqn:P; [|discriminate]. injection E as <-.
    pose proof (struct_pack_int_inv _ _ _ _ P) as R.
    destruct (struct_pack_int_ok h f n R) as (b & P' & L & _). rewrite P in P'. injection P' as <-.
    exists (isize_bytes (f_size f)). rewrite zlen_app, L. cbn [sizeof].
    pose proof (isize_pow (f_size f)). repeat split; auto; try lia; cbn [min_max] in H1;
      apply MinMax_inv in H1 as [_ ->]; cbn [mm_min mm_max]; unfold maxsize in *; try lia.
    rewrite Z.min_l by lia. unfold in_int_range, int_max in R.
    destruct (f_signed f); [|rewrite Z.mul_comm; lia].
    assert (2 ^ (8 * isize_bytes (f_size f) - 1) <= 2 ^ (isize_bytes (f_size f) * 8))
      by (apply Z.pow_le_mono_r; lia). lia.
  - injection E as <-. exists 0. repeat split; auto; try lia; destruct H as [f Ef]; discriminate.
  - injection E as <-. exists 0. repeat split; auto; try lia; destruct H as [f Ef]; discriminate.
  - injection E as <-. exists 0. repeat split; auto; try lia; destruct H as [f Ef]; discriminate.
Qed.

Lemma elems_within l mm : Forall (fun n => within n mm) l -> nonneg_mm mm ->
  mm_min mm * zlen l <= fold_left Z.add l 0
  /\ (fold_left Z.add l 0 <= mm_max mm * zlen l \/ (maxsize <= mm_max mm /\ 1 <= zlen l)).
Proof.
  intros F [N1 N2]. induction F as [|x l [X1 X2] _ IH]; [cbn; lia|].
  rewrite sum_cons, zlen_cons. unfold mm_is_unbounded in X2. pose proof (zlen_nonneg l). nia.
Qed.

Lemma py_len_iter v n l : py_len v = Ok n -> py_iter v = Ok l -> zlen l = n.
Proof.
  destruct v; try discriminate; cbn; intros E1 E2; injection E1 as <-; injection E2 as <-;
    rewrite ?zlen_map; auto.
Qed.

Lemma out_value_size v n out out' : py_len v = Ok n -> out_write_value v out = (Ok tt, out') ->
  zlen out' = zlen out + n /\ 0 <= n.
Proof.
  destruct v; try discriminate; cbn; intros E1 E2; try discriminate.
  injection E1 as <-. injection E2 as <-. rewrite zlen_app. pose proof (zlen_nonneg b). lia.
Qed.

Lemma min_max_nonneg : forall m, honest m -> forall mm, min_max m = Ok mm -> nonneg_mm mm.
Proof. exact (proj1 honest_nonneg_all). Qed.

Lemma size_all : (forall m, Sm m) /\ (forall f, Sf f).
Proof.
  apply marshal_field_ind.
  - (* MInt *) intros f st v out out' _ E. cbn [write] in E.
    destruct v; try discriminate. destruct (struct_pack_int h f z) eqn:P; [|discriminate]. injection E as <-.
    pose proof (struct_pack_int_inv _ _ _ _ P) as R.
    destruct (struct_pack_int_ok h f z R) as (b & P' & L & _). rewrite P in P'. injection P' as <-.
    pose proof (isize_pow (f_size f)).
    exists (isize_bytes (f_size f)). rewrite zlen_app. split; [lia|]. split; [lia|]. split; [auto|].
    intros _ _ mm E. eapply within_MinMax; [apply E|lia..].
  - (* MFloat *) intros f st v out out' _ E. cbn [write] in E.
    assert (X : exists p, match struct_pack_float h f p with Ok b => out_write b | Err e => sraise e end out = (Ok tt, out')).
    { destruct v; try discriminate; [|eauto]. destruct (double_of_int _) as [p|]; [eauto|discriminate]. }
    clear E. destruct X as (p & E). destruct (struct_pack_float h f p) eqn:P; [|discriminate].
    injection E as <-. pose proof (fsize_bytes_pos (ff_size f)).
    assert (zlen a = fsize_bytes (ff_size f)) as L.
    { unfold struct_pack_float in P. ok P. injection P as <-.
      destruct (is_big _ _); rewrite ?zlen_rev; unfold zlen; rewrite le_digits_length; lia. }
    exists (fsize_bytes (ff_size f)). rewrite zlen_app. split; [lia|]. split; [lia|]. split; [auto|].
    intros _ _ mm E. eapply within_MinMax; [apply E|lia..].
  - intros w st v out out' _ E. injection E as <-. exists 0.
    split; [lia|]. split; [lia|]. split; [auto|]. intros _ _ mm E. injection E as <-. exact within_zero.
  - intros w st v out out' _ E. injection E as <-. exists 0.
    split; [lia|]. split; [lia|]. split; [auto|]. intros _ _ mm E. injection E as <-. exact within_zero.
  - intros w st v out out' _ E. injection E as <-. exists 0.
    split; [lia|]. split; [lia|]. split; [auto|]. intros _ _ mm E. injection E as <-. exact within_zero.
  - (* MVarStr *) intros sz p d _ st v out out' F E. cbn [fits write] in *.
    apply sbind_Ok_inv in E as (s0 & o0 & E0 & E). apply slift_Ok_inv in E0 as [E0 ->].
    apply sbind_Ok_inv in E as (n & o0 & E1 & E). apply slift_Ok_inv in E1 as [E1 ->].
    apply sbind_Ok_inv in E as ([] & o1 & E2 & E).
    destruct (prefix_size _ _ _ _ F E2) as (k & L1 & K & Sz & M).
    destruct (out_value_size _ _ _ _ E1 E) as [L2 N].
    exists (k + n). split; [lia|]. split; [lia|]. split.
    + cbn [sizeof]. rewrite Sz, E0. cbn [rbind]. rewrite E1. reflexivity.
    + intros _ [f ->] mm Em. cbn [min_max] in Em. ok Em. ok Em.
      destruct (M ltac:(eauto) _ E3) as (M1 & M2 & M3 & M4).
      apply shl_inv in E4 as [_ ->].
      eapply within_MinMax; [apply Em|lia|lia|]. left. lia.
  - (* MPadStr *) intros size p d st v out out' F E. cbn [fits write] in *.
    apply sbind_Ok_inv in E as (s0 & o0 & E0 & E). apply slift_Ok_inv in E0 as [E0 ->].
    apply sbind_Ok_inv in E as ([] & o1 & E1 & E).
    apply sbind_Ok_inv in E as (n & o2 & E2 & E). apply slift_Ok_inv in E2 as [E2 ->].
    destruct (out_value_size _ _ _ _ E2 E1) as [L2 N]. specialize (F _ _ E0 E2).
    exists size. split; [|split; [lia|split; [auto|]]].
    + destruct (n <? size) eqn:Q.
      * destruct p as [| | |[]|[]| |]; try discriminate. injection E as <-.
        rewrite zlen_app, zlen_repeat. lia.
      * injection E as <-. lia.
    + intros _ _ mm Em. eapply within_MinMax; [apply Em|lia..].
  - (* MBytePad *) intros size ch st v out out' F E. injection E as <-. cbn [fits] in F.
    exists size. rewrite zlen_app, zlen_repeat. split; [lia|]. split; [lia|]. split; [auto|].
    intros _ _ mm Em. eapply within_MinMax; [apply Em|lia..].
  - (* MVarArr *) intros sz el _ Pel st v out out' [F1 F2] E. cbn [write] in E.
    apply sbind_Ok_inv in E as (n & o0 & E0 & E). apply slift_Ok_inv in E0 as [E0 ->].
    apply sbind_Ok_inv in E as ([] & o1 & E1 & E).
    apply sbind_Ok_inv in E as (l & o2 & E2 & E). apply slift_Ok_inv in E2 as [E2 ->].
    destruct (prefix_size _ _ _ _ F1 E1) as (k & L1 & K & Sz & M).
    destruct (size_list _ _ _ Pel (F2 _ E2) _ _ E) as (sizes & R & L2 & N2 & Z2 & W2).
    pose proof (py_len_iter _ _ _ E0 E2) as Ln.
    exists (k + fold_left Z.add sizes 0). split; [lia|]. split; [lia|]. split.
    + cbn [sizeof]. rewrite E0. cbn [rbind]. rewrite Sz, E2. cbn [rbind]. rewrite R. reflexivity.
    + intros T [[f ->] Hel] mm Em. cbn [min_max] in Em. ok Em. ok Em. ok Em.
      destruct (M ltac:(eauto) _ E3) as (M1 & M2 & M3 & M4). apply shl_inv in E5 as [_ ->].
      specialize (W2 T Hel _ E4). pose proof (min_max_nonneg _ Hel _ E4) as NN.
      destruct (elems_within _ _ W2 NN) as [_ U]. destruct NN as [N3 N4].
      eapply within_MinMax; [apply Em|lia|lia|].
      assert (0 <= n) by (rewrite <- Ln; apply zlen_nonneg).
      assert (0 <= (2 ^ (mm_max a * 8) - 1 - n) * mm_max a0) by (apply Z.mul_nonneg_nonneg; lia).
      destruct U as [U|[U1 U2]]; [left|right]; nia.
  - (* MFixArr *) intros n el Pel st v out out' F E. cbn [write fits] in *.
    apply sbind_Ok_inv in E as (n' & o0 & E0 & E). apply slift_Ok_inv in E0 as [E0 ->].
    apply sbind_Ok_inv in E as (l & o2 & E2 & E). apply slift_Ok_inv in E2 as [E2 ->].
    destruct (F _ E2) as [F1 F2].
    destruct (size_list _ _ _ Pel F1 _ _ E) as (sizes & R & L2 & N2 & Z2 & W2).
    exists (fold_left Z.add sizes 0). split; [lia|]. split; [lia|]. split.
    + cbn [sizeof]. rewrite E0. cbn [rbind]. rewrite E2. cbn [rbind]. rewrite R. reflexivity.
    + intros T [Hn Hel] mm Em. cbn [min_max] in Em. ok Em.
      specialize (W2 T Hel _ E1). pose proof (min_max_nonneg _ Hel _ E1) as NN.
      destruct (elems_within _ _ W2 NN) as [U0 U]. destruct NN as [N3 N4]. specialize (F2 T).
      rewrite Z2, F2 in *.
      eapply within_MinMax; [apply Em|lia|lia|]. destruct U as [U|[U1 U2]]; [left; lia|right; nia].
  - (* MSumArr *) intros sz el _ Pel st v out out' [F1 F2] E. cbn [write] in E.
    apply sbind_Ok_inv in E as (l & o2 & E2 & E). apply slift_Ok_inv in E2 as [E2 ->].
    apply sbind_Ok_inv in E as (sizes' & o0 & E0 & E). apply slift_Ok_inv in E0 as [E0 ->].
    apply sbind_Ok_inv in E as ([] & o1 & E1 & E).
    destruct (prefix_size _ _ _ _ F1 E1) as (k & L1 & K & Sz & M).
    destruct (size_list _ _ _ Pel (F2 _ E2) _ _ E) as (sizes & R & L2 & N2 & Z2 & W2).
    rewrite R in E0. injection E0 as <-.
    exists (k + fold_left Z.add sizes 0). split; [lia|]. split; [lia|]. split.
    + cbn [sizeof]. rewrite E2. cbn [rbind]. rewrite R. cbn [rbind]. rewrite Sz. reflexivity.
    + intros T [[f ->] Hel] mm Em. cbn [min_max] in Em. ok Em. ok Em. ok Em.
      destruct (M ltac:(eauto) _ E0) as (M1 & M2 & M3 & M4). apply shl_inv in E4 as [_ ->].
      specialize (W2 T Hel _ E3). pose proof (min_max_nonneg _ Hel _ E3) as NN.
      destruct (elems_within _ _ W2 NN) as [_ U]. destruct NN as [N3 N4].
      eapply within_MinMax; [apply Em|lia|lia|].
      pose proof (zlen_nonneg sizes).
      destruct (Z.eq_dec (mm_max a0) 0) as [Z0|Z0].
      * rewrite Z0 in *. pose proof maxsize_pos. left. lia.
      * assert (fold_left Z.add sizes 0 * 1 <= (2 ^ (mm_max a * 8) - 1) * mm_max a0)
          by (apply Z.mul_le_mono_nonneg; lia). left. lia.
  - (* MMap *) intros tbl m P st v out out' F E. cbn [write fits] in *.
    apply sbind_Ok_inv in E as (w & o0 & E0 & E). apply slift_Ok_inv in E0 as [E0 ->].
    destruct (F _ E0) as (F1 & mm & Em & Es). destruct (P _ _ _ _ F1 E) as (n & L & N & S1 & S2).
    rewrite Es in S1. injection S1 as <-.
    exists (mm_min mm). split; [auto|]. split; [auto|]. split.
    + cbn [sizeof]. rewrite Em. reflexivity.
    + intros _ Hm mm' Em'. cbn [min_max] in Em'. rewrite Em in Em'. cbn [rbind] in Em'.
      eapply within_MinMax; [apply Em'|lia..].
  - (* MStruct *) intros cls cctx fs P st v out out' F E.
    destruct v; try discriminate E. rewrite write_struct in E.
    destruct (String.eqb_spec cls0 cls) as [->|]; [|discriminate].
    rewrite fits_struct in F. specialize (F _ eq_refl).
    destruct (size_fields _ _ _ P F _ _ E) as (sizes & R & L & N & W).
    exists (fold_left Z.add sizes 0). split; [auto|]. split; [auto|]. split.
    + rewrite sizeof_struct. cbn [attrs_of]. rewrite R. reflexivity.
    + intros T Hh mm Em. rewrite honest_struct in Hh. rewrite min_max_struct in Em.
      eapply fields_within; eauto.
  - (* MSel *) intros key mapping d _ Pm Pd st v out out' F E.
    destruct v; try discriminate E. rewrite write_sel in E.
    destruct (sel_choice mapping d cls) as [m'|] eqn:C; [|discriminate].
    assert (Sm m' /\ fits st m' (VObj cls attrs)) as [Pm' Fm'].
    { destruct F as [Fm Fd]. clear - C Pm Pd Fm Fd.
      induction mapping as [|[k m] r IH]; cbn in C.
      - subst d. auto.
      - inversion Pm; subst. destruct Fm as [Fm1 Fm2].
        destruct m; auto. destruct (String.eqb _ _); auto. injection C as <-. auto. }
    destruct (Pm' _ _ _ _ Fm' E) as (n & L & N & S1 & _).
    exists n. split; [auto|]. split; [auto|]. split.
    + rewrite sizeof_sel, C. auto.
    + intros _ [].
  - (* MFunSel *) intros choices func mm P st v out out' F E.
    destruct v; try discriminate E. rewrite write_funsel in E.
    destruct (class_choice choices cls) as [m'|] eqn:C; [|discriminate].
    destruct F as [Fc Fs].
    assert (Sm m' /\ fits st m' (VObj cls attrs)) as [Pm' Fm'].
    { clear - C P Fc. induction choices as [|m r IH]; cbn in C; [discriminate|].
      inversion P; subst. destruct Fc as [Fm1 Fm2].
      destruct m; auto. destruct (String.eqb _ _); auto. injection C as <-. auto. }
    destruct (Pm' _ _ _ _ Fm' E) as (n & L & N & S1 & _).
    exists n. split; [auto|]. split; [auto|].
    assert (Sz : sizeof (MFunSel choices func mm) (VObj cls attrs) = Ok n) by (rewrite sizeof_funsel, C; auto).
    split; [auto|].
    intros T _ mm' Em. injection Em as <-. destruct (Fs T _ Sz). split; [auto|left; auto].
  - (* FField *) intros n m d P st a out out' F E. destruct (P _ _ _ _ F E) as (k & L & N & S1 & S2). eauto 8.
  - intros m P st a out out' F E. destruct (P _ _ _ _ F E) as (k & L & N & S1 & S2). eauto 8.
  - intros n m k P st a out out' F E. destruct (P _ _ _ _ F E) as (k' & L & N & S1 & S2). eauto 8.
  - (* FOpt *) intros n m pr d P st a out out' F E. cbn [fits_field write_field sizeof_field min_max_field honest_field] in *.
    destruct (field_value n d a) eqn:V.
    1: { injection E as <-. exists 0. split; [lia|]. split; [lia|]. split; [auto|].
         intros _ Hh mm Em. ok Em. destruct (min_max_nonneg _ Hh _ E).
         eapply within_MinMax; [apply Em|lia..]. }
    all: rewrite <- V in *; assert (field_value n d a <> VNone) as NV by (rewrite V; discriminate);
      destruct (P _ _ _ _ (F NV) E) as (k & L & N & S1 & S2);
      exists k; split; [auto|]; split; [auto|]; split; [auto|];
      intros T Hh mm Em; ok Em; destruct (S2 T Hh _ E0) as [W1 W2];
      eapply within_MinMax; [apply Em|lia|lia|]; unfold mm_is_unbounded in W2; lia.
  - (* FGroup *) intros fs P st a out out' F E. rewrite fits_group in F. rewrite write_group in E.
    destruct (size_fields _ _ _ P F _ _ E) as (sizes & R & L & N & W).
    exists (fold_left Z.add sizes 0). split; [auto|]. split; [auto|]. split.
    + rewrite sizeof_group, R. reflexivity.
    + intros T Hh mm Em. rewrite honest_group in Hh. rewrite min_max_group in Em.
      eapply fields_within; eauto.
  - intros bs st a out out' _ E. apply bits_write_size in E as [E N].
    exists (bits_size bs). repeat split; auto; apply MinMax_inv in H1 as [_ ->];
      unfold mm_is_unbounded; cbn [mm_min mm_max]; lia.
  - intros n bs st a out out' _ E. apply bits_write_size in E as [E N].
    exists n. repeat split; auto; apply MinMax_inv in H1 as [_ ->];
      unfold mm_is_unbounded; cbn [mm_min mm_max]; lia.
Qed.
End Sizes.

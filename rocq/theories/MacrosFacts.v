(** Definitions made with the macros: proofs. *)
From Verif Require Import Base IntCodec Stream MinMax Marshal MarshalInd FieldSpec FieldFacts Macros MacrosSpec.
From Coq Require Import ZArith List Bool String Lia ZifyBool.
Import ListNotations.
Open Scope Z_scope.
Ltac Zify.zify_post_hook ::= Z.div_mod_to_equations.

Lemma fold_total l : forall z, fold_left Z.add l z = z + total l.
Proof. induction l as [|x l IH]; intros z; cbn; [lia|]. rewrite IH. lia. Qed.

Lemma fixed_width m : bm_is_fixed m = Ok (if (0 <=? bm_size m) && (bm_size m <=? maxsize) then true else false).
Proof.
  unfold bm_is_fixed, MinMax. assert (E : (bm_size m <=? bm_size m) = true) by lia. rewrite E. cbn [passert rbind].
  unfold mm_is_fixed. cbn [mm_min mm_max]. f_equal.
  assert (M : 0 < maxsize) by reflexivity. revert M. generalize maxsize. intros mx M. generalize (bm_size m). intros b. destruct (Z.leb_spec 0 b), (Z.leb_spec b mx); cbn [andb]; lia.
Qed.
Lemma all_fixed_widths fs : exists b, all_fixed fs = Ok b /\ (b = true <-> Forall (fun f => 0 <= width f <= maxsize) fs).
Proof.
  induction fs as [|f fs (b & E & H)]; cbn [all_fixed]; [exists true; split; [auto|]; split; auto|].
  rewrite fixed_width, E. cbn [rbind]. eexists. split; [reflexivity|]. rewrite Forall_cons_iff, <- H. unfold width.
  rewrite andb_true_iff. generalize maxsize. intros mx. destruct (Z.leb_spec 0 (bm_size (bf_marshal f))), (Z.leb_spec (bm_size (bf_marshal f)) mx); cbn [andb];
    (split; intros [A B]; split; auto; try discriminate; exfalso; lia).
Qed.

Lemma no_positional fs : Forall (fun f => ~ positional f) fs -> existsb is_positional fs = false.
Proof.
  induction 1 as [|f fs Hf _ IH]; cbn; auto. rewrite IH, orb_false_r. unfold is_positional. unfold positional in Hf.
  destruct (bf_marshal f); auto. exfalso. eauto.
Qed.
Lemma all_positional fs : Forall positional fs -> forallb is_positional fs = true.
Proof. induction 1 as [|f fs (sl & E) _ IH]; cbn; auto. unfold is_positional at 1. now rewrite E. Qed.

Theorem bit_group fs : Forall (fun f => ~ positional f) fs ->
  (Forall (fun f => 0 <= width f <= maxsize) fs ->
     (total (map width fs) mod 8 = 0 -> BitFields fs = Ok (FBits fs) /\ 8 * bits_size fs = total (map width fs))
     /\ (total (map width fs) mod 8 <> 0 -> BitFields fs = Err BitFieldNotInByteBoundry))
  /\ (~ Forall (fun f => 0 <= width f <= maxsize) fs -> BitFields fs = Err InstructError).
Proof.
  intros P. unfold BitFields. rewrite no_positional by exact P. unfold bits_container_check, bits_size.
  rewrite fold_total. change (map (fun f => bm_size (bf_marshal f)) fs) with (map width fs). rewrite Z.add_0_l.
  destruct (all_fixed_widths fs) as (b & -> & H). cbn [rbind]. destruct b; cbn [negb].
  - assert (F : Forall (fun f => 0 <= width f <= maxsize) fs) by tauto. split; [|tauto]. intros _. split; intros M.
    + assert (E : (total (map width fs) mod 8 =? 0) = true) by lia. rewrite E. cbn [negb rbind]. split; auto. lia.
    + assert (E : (total (map width fs) mod 8 =? 0) = false) by lia. now rewrite E.
  - assert (F : ~ Forall (fun f => 0 <= width f <= maxsize) fs) by (intros F; apply H in F; discriminate). split; [tauto|]. auto.
Qed.

Lemma zmax_spec l m : zmax_list l = Ok m <-> In m l /\ forall x, In x l -> x <= m.
Proof.
  destruct l as [|x l]; cbn [zmax_list]; [split; [discriminate|intros [[] _]]|].
  assert (G : forall l x, In (fold_left Z.max l x) (x :: l) /\ forall y, In y (x :: l) -> y <= fold_left Z.max l x).
  { clear. induction l as [|y l IH]; intros x; cbn [fold_left]; [cbn; split; [auto|intros y [->|[]]; lia]|].
    destruct (IH (Z.max x y)) as [I U]. split.
    - cbn in I |- *. destruct I as [<-|I]; [destruct (Z.max_spec x y) as [[_ ->]|[_ ->]]; auto|auto].
    - intros z [<-|[<-|Iz]]; [|..]; try (etransitivity; [|apply U; now left]; lia). apply U. now right. }
  destruct (G l x) as [I U]. split.
  - intros E. assert (m = fold_left Z.max l x) by congruence. subst. auto.
  - intros [I' U']. f_equal. apply Z.le_antisymm; auto.
Qed.
Lemma zmax_nonempty l : l <> [] -> exists m, zmax_list l = Ok m.
Proof. destruct l; [congruence|]. cbn. eauto. Qed.

Lemma tops fs : Forall (fun f => exists sl, bf_marshal f = BMPos sl /\ sl <> []) fs -> exists maxes,
  rmap_list (fun f => let* sl := bm_slices (bf_marshal f) in zmax_list (map snd sl)) fs = Ok maxes
  /\ (forall m, In m maxes -> exists f s, In f fs /\ slice_of f s /\ snd s = m)
  /\ (forall f s, In f fs -> slice_of f s -> exists m, In m maxes /\ snd s <= m)
  /\ (fs <> [] -> maxes <> []).
Proof.
  induction 1 as [|f fs (sl & E & N) _ (ms & R & A & B & NE)]; cbn [rmap_list]; [exists []; repeat split; auto; easy|].
  rewrite E. cbn [bm_slices rbind]. destruct (zmax_nonempty (map snd sl)) as (m & Z); [now destruct sl|]. rewrite Z. cbn [rbind]. rewrite R. cbn [rbind].
  apply zmax_spec in Z as [I U]. exists (m :: ms). split; auto. split; [|split; [|discriminate]].
  - intros x [<-|X].
    + apply in_map_iff in I as (s & <- & Is). exists f, s. split; [now left|]. split; auto. exists sl. auto.
    + destruct (A x X) as (g & s & Ig & S). exists g, s. split; [now right|auto].
  - intros g s [<-|Ig] (sl' & E' & Is).
    + exists m. split; [now left|]. apply U, in_map. congruence.
    + destruct (B g s Ig) as (x & Ix & L); [exists sl'; auto|]. exists x. split; [now right|auto].
Qed.

Lemma positional_size bit_size fs top :
  Forall (fun f => exists sl, bf_marshal f = BMPos sl /\ sl <> []) fs -> is_top fs top ->
  Forall (fun f => 0 <= width f <= maxsize) fs ->
  let declared := match bit_size with None => top | Some n => n end in
  (declared < top -> posbits_container_size bit_size fs = Err ValueError)
  /\ (top <= declared -> declared mod 8 <> 0 -> posbits_container_size bit_size fs = Err BitFieldNotInByteBoundry)
  /\ (top <= declared -> declared mod 8 = 0 -> exists n, posbits_container_size bit_size fs = Ok n /\ 8 * n = declared).
Proof.
  intros P [(f & s & If & S & T) U] W declared. unfold posbits_container_size.
  destruct (all_fixed_widths fs) as (b & -> & H). assert (b = true) by tauto. subst b. cbn [rbind negb].
  destruct (tops fs P) as (ms & R & A & B & NE). rewrite R. cbn [rbind].
  assert (Z : zmax_list ms = Ok top).
  { apply zmax_spec. destruct (B f s If S) as (m & Im & L). destruct (A m Im) as (g & s' & Ig & S' & E').
    pose proof (U g s' Ig S'). assert (Em : m = top) by (clear - H0 L T E'; lia). split; [now rewrite <- Em|].
    intros x Ix. destruct (A x Ix) as (g2 & s2 & I2 & S2 & <-). eauto. }
  rewrite Z. cbn [rbind]. fold declared. clearbody declared. clear - declared top. split; [|split]; intros L.
  - assert (E : (declared <? top) = true) by lia. now rewrite E.
  - intros M. assert (E : (declared <? top) = false) by lia. rewrite E. assert (E' : (declared mod 8 =? 0) = false) by lia. now rewrite E'.
  - intros M. assert (E : (declared <? top) = false) by lia. rewrite E. assert (E' : (declared mod 8 =? 0) = true) by lia. rewrite E'. cbn [negb].
    eexists. split; [reflexivity|]. lia.
Qed.

Lemma no_top fs g : Forall (fun f => exists sl, bf_marshal f = BMPos sl) fs -> In g fs -> bf_marshal g = BMPos [] ->
  rmap_list (fun f => let* sl := bm_slices (bf_marshal f) in zmax_list (map snd sl)) fs = Err ValueError.
Proof.
  induction 1 as [|f fs (sl & E) F IH]; [intros []|]. intros I Eg. cbn [rmap_list]. rewrite E. cbn [bm_slices rbind].
  destruct sl as [|x sl]; [reflexivity|]. destruct I as [->|I]; [congruence|]. rewrite IH by assumption. destruct (zmax_nonempty (map snd (x :: sl))) as (m & ->); [discriminate|]. reflexivity.
Qed.
Lemma positional_no_bits bit_size fs g : Forall (fun f => exists sl, bf_marshal f = BMPos sl) fs -> Forall (fun f => 0 <= width f <= maxsize) fs ->
  fs = [] \/ (In g fs /\ bf_marshal g = BMPos []) -> posbits_container_size bit_size fs = Err ValueError.
Proof.
  intros P W H. unfold posbits_container_size. destruct (all_fixed_widths fs) as (b & -> & Hb). assert (b = true) by tauto. subst b. cbn [rbind negb].
  destruct H as [->|(I & E)]; [reflexivity|]. now rewrite (no_top fs g P I E).
Qed.

Lemma not_positional bit_size l1 g l2 : Forall (fun f => exists sl, bf_marshal f = BMPos sl /\ sl <> []) l1 -> ~ positional g ->
  Forall (fun f => 0 <= width f <= maxsize) (l1 ++ g :: l2) -> posbits_container_size bit_size (l1 ++ g :: l2) = Err AttributeError.
Proof.
  intros P N W. unfold posbits_container_size. destruct (all_fixed_widths (l1 ++ g :: l2)) as (b & -> & Hb). assert (b = true) by tauto. subst b. cbn [rbind negb].
  assert (R : rmap_list (fun f => let* sl := bm_slices (bf_marshal f) in zmax_list (map snd sl)) (l1 ++ g :: l2) = Err AttributeError); [|now rewrite R].
  clear W Hb. induction P as [|f l1 (sl & E & NE) _ IH]; cbn [app rmap_list].
  - unfold bm_slices. destruct (bf_marshal g) as [| | |sl] eqn:E; try reflexivity. exfalso. apply N. exists sl. exact E.
  - rewrite E. cbn [bm_slices rbind]. destruct (zmax_nonempty (map snd sl)) as (m & ->); [now destruct sl|]. cbn [rbind]. now rewrite IH.
Qed.

Lemma positional_group fs top :
  Forall (fun f => exists sl, bf_marshal f = BMPos sl /\ sl <> []) fs -> is_top fs top ->
  Forall (fun f => 0 <= width f <= maxsize) fs ->
  (top mod 8 = 0 -> exists n, BitFields fs = Ok (FPosBits n fs) /\ 8 * n = top)
  /\ (top mod 8 <> 0 -> BitFields fs = Err BitFieldNotInByteBoundry).
Proof.
  intros P T W. unfold BitFields.
  assert (AP : Forall positional fs) by (eapply Forall_impl; [|exact P]; intros f (sl & E & _); exists sl; auto).
  assert (X : existsb is_positional fs = true).
  { destruct T as [(f & s & I & (sl & E & _) & _) _]. apply existsb_exists. exists f. split; auto. unfold is_positional. now rewrite E. }
  rewrite X, all_positional by exact AP. cbn [passert rbind].
  destruct (positional_size None fs top P T W) as (_ & B & C). split; intros M.
  - destruct C as (n & -> & E); auto; [lia|]. cbn. eauto.
  - rewrite B; auto. lia.
Qed.

Lemma mixed_group fs f g : In f fs -> In g fs -> positional f -> ~ positional g -> BitFields fs = Err AssertionError.
Proof.
  intros If Ig (sl & P) NP. unfold BitFields.
  assert (X : existsb is_positional fs = true) by (apply existsb_exists; exists f; split; auto; unfold is_positional; now rewrite P).
  assert (Y : forallb is_positional fs = false).
  { destruct (forallb is_positional fs) eqn:E; auto. exfalso. rewrite forallb_forall in E. specialize (E g Ig). unfold is_positional in E. apply NP. unfold positional.
    destruct (bf_marshal g); try discriminate. eauto. }
  now rewrite X, Y.
Qed.

(** *** Defaults *)
Lemma new_single n m d : field_value n d (new_attrs [FField n m d] []) = d.
Proof. unfold field_value. cbn. now rewrite String.eqb_refl. Qed.
Lemma write_default h n m d out : write_field h (FField n m d) (new_attrs [FField n m d] []) out = write h m d out.
Proof. change (write_field h (FField n m d) (new_attrs [FField n m d] []) out) with (write h m (field_value n d (new_attrs [FField n m d] [])) out). now rewrite new_single. Qed.

Lemma strip_len d set b : zlen (strip_bytes d set b) <= zlen b.
Proof.
  destruct (strip_trims d set b) as (l & r & E & _). apply (f_equal (@List.length Z)) in E. rewrite !app_length in E. unfold zlen. lia.
Qed.
Lemma padded_default n size p0 ps d b f h out : PaddedString n size (VBytes (p0 :: ps)) d (VBytes b) = Ok f -> exists enc,
  write_field h f (new_attrs [f] []) out = (Ok tt, out ++ enc) /\ zlen enc = size.
Proof.
  unfold PaddedString, check_default. cbn [py_len rbind]. destruct (zlen b <=? size) eqn:L; cbn [passert rbind]; [|discriminate].
  intros E. assert (f = FField n (MPadStr size (VBytes (p0 :: ps)) d) (VBytes b)) by congruence. subst f.
  rewrite write_default. pose proof (strip_len d (p0 :: ps) b) as SL. pose proof (strip_trims d (p0 :: ps) b) as T.
  assert (Q : zlen (strip_bytes d (p0 :: ps) b) <= size) by lia.
  exists (strip_bytes d (p0 :: ps) b ++ repeat p0 (Z.to_nat (size - zlen (strip_bytes d (p0 :: ps) b)))). split; [now apply padded_write|].
  unfold zlen in *. rewrite app_length, repeat_length. lia.
Qed.
Lemma padded_rejected n size padding d v len : v <> VNone -> py_len v = Ok len ->
  (PaddedString n size padding d v = Err AssertionError <-> size < len).
Proof.
  intros N L. unfold PaddedString, check_default. assert (X : match v with VNone => Ok tt | v => let* n := py_len v in passert (n <=? size) end = passert (len <=? size)) by (destruct v; try congruence; cbn [py_len rbind] in *; congruence).
  rewrite X. destruct (Z.leb_spec len size); cbn [passert rbind]; split; try discriminate; try lia; auto.
Qed.
Lemma buffer_default n size b f h c : bytes_ok b -> size <= maxsize -> FixedSizeBuffer n size (VBytes b) = Ok f ->
  (forall out, write_field h f (new_attrs [f] []) out = (Ok tt, out ++ b)) /\ zlen b = size
  /\ exists m, f = FField n m (VBytes b) /\ roundtrips h m c (VBytes b) b.
Proof.
  intros B M. unfold FixedSizeBuffer, check_default. cbn [py_len rbind]. destruct (Z.eqb_spec (zlen b) size) as [L|]; cbn [passert rbind]; [|discriminate].
  intros E. assert (f = FField n (MPadStr size (VBytes []) PNone) (VBytes b)) by congruence. subst f.
  pose proof (fixed_buffer_exact h size b B L M c) as R. split; [intros out; rewrite write_default; apply R|]. split; eauto.
Qed.
Lemma exact_rejected v len k : v <> VNone -> py_len v = Ok len ->
  (forall n, FixedSizeBuffer n k v = Err AssertionError <-> len <> k) /\ (forall n el, FixedSizeArray n k el v = Err AssertionError <-> len <> k).
Proof.
  intros N L. assert (X : match v with VNone => Ok tt | v => let* n := py_len v in passert (n =? k) end = passert (len =? k)) by (destruct v; try congruence; cbn [py_len rbind] in *; congruence).
  unfold FixedSizeBuffer, FixedSizeArray, check_default. rewrite X.
  destruct (Z.eqb_spec len k); cbn [passert rbind]; split; intros; split; try discriminate; try tauto; auto.
Qed.
Lemma array_default n k el l encs f h c : Forall2 (roundtrips h el c) l encs -> FixedSizeArray n k el (VList l) = Ok f ->
  zlen l = k /\ forall out, write_field h f (new_attrs [f] []) out = (Ok tt, out ++ List.concat encs).
Proof.
  intros F. unfold FixedSizeArray, check_default. cbn [py_len rbind]. destruct (Z.eqb_spec (zlen l) k) as [L|]; cbn [passert rbind]; [|discriminate].
  intros E. assert (f = FField n (MFixArr k el) (VList l)) by congruence. subst f. split; auto. intros out. rewrite write_default.
  cbn [write]. unfold sbind, slift. cbn [py_iter py_len]. revert out. clear - F. induction F as [|x e l encs [W _] _ IH]; intros out; cbn [sforeach List.concat].
  - now rewrite app_nil_r.
  - unfold sbind. rewrite W. rewrite IH. now rewrite app_assoc.
Qed.

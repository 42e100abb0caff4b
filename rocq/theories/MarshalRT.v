(** Round trip of canonical values, exact consumption. *)
From Verif Require Import Base BaseProofs IntCodec CodecSpec IntCodecProofs FloatProofs
  BitStringIO Stream StreamSpec StreamProofs MinMax Marshal BitFieldSpec BitFieldProofs
  MarshalSpec MarshalInd.
From Coq Require Import ZArith List Bool String Lia ZifyBool ZifyNat.
Import ListNotations.
Open Scope Z_scope.
Ltac Zify.zify_post_hook ::= Z.div_mod_to_equations.

(** ** Strings *)
Lemma lstrip_keep set b x : existsb (Z.eqb x) set = false -> lstrip_bytes set (x :: b) = x :: b.
Proof. intros H. cbn. now rewrite H. Qed.

Lemma lstrip_pad set p n b : existsb (Z.eqb p) set = true ->
  lstrip_bytes set (repeat p n ++ b) = lstrip_bytes set b.
Proof. intros H. induction n; cbn; auto. now rewrite H. Qed.

Lemma rstrip_pad set p n b : existsb (Z.eqb p) set = true ->
  rstrip_bytes set (b ++ repeat p n) = rstrip_bytes set b.
Proof.
  intros H. unfold rstrip_bytes. rewrite rev_app_distr.
  assert (E : rev (repeat p n) = repeat p n).
  { clear. induction n; cbn; auto. rewrite IHn. clear. induction n; cbn; congruence. }
  now rewrite E, lstrip_pad.
Qed.

Lemma existsb_head p ps : existsb (Z.eqb p) (p :: ps) = true.
Proof. cbn. now rewrite Z.eqb_refl. Qed.

Lemma strip_pad d p ps n b : d = PRight \/ d = PBoth ->
  strip_bytes d (p :: ps) (b ++ repeat p n) = strip_bytes d (p :: ps) b.
Proof.
  intros [->| ->]; cbn [strip_bytes]; now rewrite rstrip_pad by apply existsb_head.
Qed.

(** ** The property proved by induction *)
Definition RT (h : host) (t : bool) (m : marshal) (c : ctx) (v : value) (enc : list Z) : Prop :=
  (forall out, write h m v out = (Ok tt, out ++ enc))
  /\ bytes_ok enc
  /\ forall s tl, stream_ok s -> (t = true -> has_tell s = true) -> rest s = enc ++ tl ->
       read h m c s = (Ok v, consume (List.length enc) s).

Definition RTf (h : host) (t : bool) (cls : name) (cctx : option ctx) (c : ctx) (f : field)
  (a a_in a_out : attrs) (enc : list Z) : Prop :=
  (forall out, write_field h f a out = (Ok tt, out ++ enc))
  /\ bytes_ok enc
  /\ forall s tl, stream_ok s -> (t = true -> has_tell s = true) -> rest s = enc ++ tl ->
       read_field h cls cctx f c (s, a_in) = (Ok tt, (consume (List.length enc) s, a_out)).

Lemma RT_bytes_of h t m c v enc : RT h t m c v enc -> bytes_of h m v = enc.
Proof. intros (W & _). unfold bytes_of. now rewrite W. Qed.

Section RoundTrip.
Variable h : host.

Definition Pm (m : marshal) : Prop := forall t c v, canon h t m c v -> exists enc, RT h t m c v enc.
Definition Pf (f : field) : Prop := forall t cls cctx c a a_in a_out,
  canon_field h t cls cctx c f a a_in a_out -> exists enc, RTf h t cls cctx c f a a_in a_out enc.

(** Lists of elements *)
Lemma write_list_ok (el : marshal) l encs :
  Forall2 (fun x e => forall out, write h el x out = (Ok tt, out ++ e)) l encs ->
  forall out, sforeach l (write h el) out = (Ok tt, out ++ List.concat encs).
Proof.
  induction 1 as [|x e l encs Hx _ IH]; intros out; cbn [sforeach List.concat].
  - unfold sret. now rewrite app_nil_r.
  - unfold sbind. rewrite Hx, IH, app_assoc. reflexivity.
Qed.

Lemma read_list_ok (el : marshal) t c l encs :
  Forall2 (RT h t el c) l encs ->
  forall s tl, stream_ok s -> (t = true -> has_tell s = true) -> rest s = List.concat encs ++ tl ->
  stM_loop (List.length l) (read h el c) s = (Ok l, consume (List.length (List.concat encs)) s).
Proof.
  induction 1 as [|x e l encs Hx _ IH]; intros s tl O T R; cbn [List.length List.concat] in *.
  - cbn. unfold sret. now rewrite consume_0.
  - destruct Hx as (W & B & Rd). rewrite <- app_assoc in R.
    destruct (rest_after s e _ O R) as [R' O'].
    change (stM_loop (S (List.length l)) (read h el c) s)
      with (sbind (read h el c) (fun y => sbind (stM_loop (List.length l) (read h el c))
              (fun r => sret (y :: r))) s).
    unfold sbind at 1. rewrite (Rd s _ O T R). unfold sbind at 1.
    rewrite (IH (consume (List.length e) s) tl); auto.
    + unfold sret. rewrite consume_consume, app_length by auto. reflexivity.
    + now rewrite has_tell_consume.
Qed.

Lemma Forall_RT t el c l : Pm el -> Forall (canon h t el c) l ->
  exists encs, Forall2 (RT h t el c) l encs.
Proof.
  intros P. induction 1 as [|x l Hx _ [encs IH]]; [exists []; constructor|].
  destruct (P t c x Hx) as [e E]. exists (e :: encs). constructor; auto.
Qed.

Lemma RT_writes t el c l encs : Forall2 (RT h t el c) l encs ->
  Forall2 (fun x e => forall out, write h el x out = (Ok tt, out ++ e)) l encs.
Proof. induction 1 as [|x e l encs (W & _) _ IH]; constructor; auto. Qed.

Lemma RT_concat_bytes t el c l encs : Forall2 (RT h t el c) l encs -> bytes_ok (List.concat encs).
Proof.
  induction 1 as [|x e l encs (W & B & _) _ IH]; cbn; [constructor|].
  apply bytes_ok_app; auto.
Qed.

(** Bit groups *)
Lemma bit_container_ok q size bs a :
  bitgroup_ok q size bs ->
  Forall (fun b => bm_accepts (bf_marshal b) (bf_value b a)) bs ->
  exists enc, (forall out, write_bit_container size a bs out = (Ok tt, out ++ enc))
    /\ bytes_ok enc /\ zlen enc = size
    /\ fields_hold enc bs 0 a
    /\ (forall i, fields_own bs 0 i = false -> bit_at enc i = false).
Proof.
  intros (Hs & U & W & F & D) A.
  destruct (bitfields_write_ok q a bs 0 (mkBsio 0 (repeat 0 (Z.to_nat size))))
    as (p & val & E & B & L & S & H); cbn [bs_val bs_pos]; auto.
  - apply bytes_ok_repeat0.
  - rewrite zlen_repeat, Z2Nat.id by lia. auto.
  - intros. apply bit_at_repeat0.
  - exists val. cbn [bs_val] in *. rewrite zlen_repeat, Z2Nat.id in L by lia.
    repeat split; auto.
    + intros out. unfold write_bit_container, sbind at 1, slift, bs_new_size.
      destruct (Z.ltb_spec size 0); [lia|]. rewrite E. reflexivity.
    + intros i Hi. rewrite S by auto. apply bit_at_repeat0.
Qed.

Lemma read_bit_container_ok q size bs a acc acc' enc s tl :
  bitgroup_ok q size bs -> bytes_ok enc -> zlen enc = size -> fields_hold enc bs 0 a ->
  fields_norm bs a acc = Ok acc' ->
  stream_ok s -> rest s = enc ++ tl ->
  read_bit_container size bs (s, acc) = (Ok tt, (consume (List.length enc) s, acc')).
Proof.
  intros (Hs & U & W & F & D) B L H N O R. subst size.
  unfold read_bit_container, sbind at 1, on_stream. cbn [fst snd].
  rewrite (sread_prefix s enc tl) by (auto; lia).
  destruct (bitfields_read_ok q a bs 0 (bs_new_bytes enc) acc acc') as (p & E); auto.
  cbn [fst snd]. now rewrite E.
Qed.

(** Byte-count arrays *)
Lemma tell_plain s : has_tell s = true -> exists d p, s = SBytesIO d p.
Proof. destruct s; [eauto|discriminate]. Qed.

Lemma sum_loop_ok (el : marshal) c l encs :
  Forall2 (RT h true el c) l encs ->
  Forall (fun e => 0 < zlen e) encs ->
  forall s tl fuel, stream_ok s -> has_tell s = true -> rest s = List.concat encs ++ tl ->
  (List.length (List.concat encs) <= fuel)%nat ->
  sum_loop fuel (read h el c) (zlen (List.concat encs)) s
  = (Ok l, consume (List.length (List.concat encs)) s).
Proof.
  induction 1 as [|x e l encs Hx _ IH]; intros Pos s tl fuel O T R Fu.
  - cbn [List.concat]. rewrite zlen_nil. cbn [List.length]. rewrite consume_0.
    destruct fuel; reflexivity.
  - destruct Hx as (W & B & Rd). inversion Pos as [|y z Pe Pr]; subst. cbn [List.concat] in *.
    rewrite zlen_app. pose proof (zlen_nonneg (List.concat encs)).
    rewrite app_length in *.
    destruct fuel as [|fuel]; [unfold zlen in *; lia|].
    cbn [sum_loop]. destruct (Z.gtb_spec (zlen e + zlen (List.concat encs)) 0); [|lia].
    rewrite <- app_assoc in R. destruct (rest_after s e _ O R) as [R' O'].
    unfold sbind at 1, sget at 1. unfold sbind at 1. rewrite (Rd s _ O (fun _ => T) R).
    unfold sbind at 1, sget at 1.
    destruct (tell_plain s T) as (d & p & ->). cbn [consume stell].
    replace (p + Z.of_nat (List.length e) - p) with (zlen e) by (unfold zlen; lia).
    destruct (Z.eqb_spec (zlen e) 0); [lia|].
    unfold sbind at 1. replace (zlen e + zlen (List.concat encs) - zlen e) with (zlen (List.concat encs)) by lia.
    change (SBytesIO d (p + Z.of_nat (List.length e))) with (consume (List.length e) (SBytesIO d p)).
    rewrite (IH Pr (consume (List.length e) (SBytesIO d p)) tl fuel); auto.
    + unfold sret. now rewrite consume_consume by auto.
    + unfold zlen in *; lia.
Qed.

Lemma sizes_sum el l encs t c :
  Forall2 (RT h t el c) l encs ->
  map (fun x => zlen (bytes_of h el x)) l = map zlen encs.
Proof.
  induction 1 as [|x e l encs Hx _ IH]; cbn; auto.
  now rewrite (RT_bytes_of _ _ _ _ _ _ Hx), IH.
Qed.

Lemma zlen_concat {A} (encs : list (list A)) : fold_left Z.add (map zlen encs) 0 = zlen (List.concat encs).
Proof.
  induction encs as [|e r IH]; auto. cbn [map List.concat]. rewrite sum_cons, IH, zlen_app. reflexivity.
Qed.

Lemma rmap_list_ok {A B} (f : A -> res B) l l' :
  Forall2 (fun x y => f x = Ok y) l l' -> rmap_list f l = Ok l'.
Proof. induction 1 as [|x y l l' E _ IH]; cbn; auto. now rewrite E, IH. Qed.

(** Fields in sequence *)
Lemma fields_RT t cls cctx c a a_end fs : Forall Pf fs -> forall a_in,
  canon_fields h t cls cctx c a a_end fs a_in ->
  exists enc, (forall out, write_fields h fs a out = (Ok tt, out ++ enc))
    /\ bytes_ok enc
    /\ forall s tl, stream_ok s -> (t = true -> has_tell s = true) -> rest s = enc ++ tl ->
         read_fields h cls cctx fs c (s, a_in) = (Ok tt, (consume (List.length enc) s, a_end)).
Proof.
  induction 1 as [|f fs Hf _ IH]; intros a_in C; cbn [canon_fields] in C.
  - subst a_end. exists []. repeat split.
    + intros out. cbn. unfold sret. now rewrite app_nil_r.
    + constructor.
    + intros s tl O T R. cbn. unfold sret. now rewrite consume_0.
  - destruct C as (a_mid & C1 & C2).
    destruct (Hf _ _ _ _ _ _ _ C1) as (e & W & B & Rd).
    destruct (IH _ C2) as (enc & W' & B' & Rd').
    exists (e ++ enc). repeat split.
    + intros out. cbn [write_fields]. unfold sbind. now rewrite W, W', app_assoc.
    + apply bytes_ok_app; auto.
    + intros s tl O T R. rewrite <- app_assoc in R. destruct (rest_after s e _ O R) as [R1 O1].
      rewrite read_fields_cons. unfold sbind. rewrite (Rd s _ O T R).
      rewrite (Rd' _ tl O1); auto.
      * now rewrite consume_consume, app_length by auto.
      * now rewrite has_tell_consume.
Qed.

Lemma canon_struct t cls cctx fs c v :
  canon h t (MStruct cls cctx fs) c v
  <-> exists a, v = VObj cls a /\ canon_fields h t cls cctx c a a fs (new_attrs fs []).
Proof. reflexivity. Qed.

Lemma canon_group t cls cctx c fs a a_in a_out :
  canon_field h t cls cctx c (FGroup fs) a a_in a_out
  <-> canon_fields h t cls cctx c a a_out fs a_in.
Proof. reflexivity. Qed.

Lemma sel_choice_default mapping d cls :
  Forall (fun p => class_name (snd p) <> Some cls) mapping -> sel_choice mapping d cls = d.
Proof.
  induction 1 as [|[k m] r Hk _ IH]; cbn; auto. cbn in Hk.
  destruct m; auto. cbn in Hk. destruct (String.eqb_spec cls0 cls); congruence.
Qed.

Lemma roundtrip_all : (forall m, Pm m) /\ (forall f, Pf f).
Proof.
  apply marshal_field_ind; unfold Pm, Pf; intros.
  - (* MInt *)
    cbn [canon] in H. destruct H as (z & -> & Rg). apply int_representable_range in Rg.
    destruct (struct_pack_int_ok h f z Rg) as (b & E & L & B & _).
    exists b. repeat split; auto.
    + intros out. cbn [write]. rewrite E. reflexivity.
    + intros s tl O T R. cbn [read]. unfold sbind at 1.
      pose proof (isize_bytes_pos (f_size f)).
      rewrite <- L. rewrite (sread_prefix s b tl) by (auto; rewrite L; destruct (f_size f); cbn; unfold maxsize; lia).
      destruct (Z.ltb_spec (zlen b) (zlen b)); [lia|].
      now rewrite (struct_unpack_pack_int h f z b E).
  - (* MFloat *)
    cbn [canon] in H. destruct H as (p & -> & Rg).
    destruct (float_codec_roundtrip h f p Rg) as (b & E & L & B & U).
    exists b. repeat split; auto.
    + intros out. cbn [write]. rewrite E. reflexivity.
    + intros s tl O T R. cbn [read]. unfold sbind at 1.
      rewrite <- L. rewrite (sread_prefix s b tl) by (auto; rewrite L; destruct (ff_size f); cbn; unfold maxsize; lia).
      destruct (Z.ltb_spec (zlen b) (zlen b)); [lia|]. now rewrite U.
  - (* MConst *)
    cbn [canon] in H. subst v0. exists []. repeat split.
    + intros out. cbn. unfold sret. now rewrite app_nil_r.
    + constructor.
    + intros s tl O T R. cbn. unfold sret. now rewrite consume_0.
  - (* MCall *)
    cbn [canon] in H. exists []. repeat split.
    + intros out. cbn. unfold sret. now rewrite app_nil_r.
    + constructor.
    + intros s tl O T R. cbn [read]. rewrite H. cbn. unfold slift. now rewrite consume_0.
  - (* MPtr *)
    cbn [canon] in H. exists []. repeat split.
    + intros out. cbn. unfold sret. now rewrite app_nil_r.
    + constructor.
    + intros s tl O T R. cbn [read]. unfold slift. rewrite H. cbn [List.length]. now rewrite consume_0.
  - (* MVarStr *)
    cbn [canon] in H0. destruct H0 as (b & -> & B & L & St & C).
    destruct (H _ _ _ C) as (e & W & Be & Rd).
    exists (e ++ b). repeat split.
    + intros out. cbn [write]. unfold sbind, slift. rewrite St. cbn [py_len]. rewrite W.
      cbn [out_write_value]. unfold out_write. now rewrite app_assoc.
    + apply bytes_ok_app; auto.
    + intros s tl O T R. rewrite <- app_assoc in R. destruct (rest_after s e _ O R) as [R1 O1].
      cbn [read]. unfold sbind, slift. rewrite (Rd s _ O T R). cbn [as_int].
      rewrite (sread_prefix _ b tl O1 R1 L). destruct (Z.ltb_spec (zlen b) (zlen b)); [lia|].
      rewrite St. now rewrite consume_consume, app_length by auto.
  - (* MPadStr *)
    cbn [canon] in H. destruct H as (b & -> & B & L & St & Pd).
    destruct Pd as [E|(Dd & p0 & ps & -> & Bp)].
    + subst n. exists b. repeat split; auto.
      * intros out. cbn [write]. unfold sbind, slift. rewrite St. cbn [out_write_value py_len].
        unfold out_write. destruct (Z.ltb_spec (zlen b) (zlen b)); [lia|]. reflexivity.
      * intros s tl O T R. cbn [read]. unfold sbind, slift.
        rewrite (sread_prefix _ b tl O R) by lia.
        destruct (Z.ltb_spec (zlen b) (zlen b)); [lia|]. now rewrite St.
    + exists (b ++ repeat p0 (Z.to_nat (n - zlen b))). repeat split.
      * intros out. cbn [write]. unfold sbind, slift. rewrite St. cbn [out_write_value py_len].
        unfold out_write. destruct (Z.ltb_spec (zlen b) n).
        -- now rewrite app_assoc.
        -- replace (Z.to_nat (n - zlen b)) with O by lia. cbn. now rewrite app_nil_r.
      * apply bytes_ok_app; split; auto. apply Forall_forall. intros x Hx. apply repeat_spec in Hx. now subst.
      * intros s tl O T R. cbn [read]. unfold sbind, slift.
        set (enc := b ++ repeat p0 (Z.to_nat (n - zlen b))) in *.
        assert (Le : zlen enc = n).
        { unfold enc. rewrite zlen_app, zlen_repeat. lia. }
        rewrite <- Le. rewrite (sread_prefix _ enc tl O R) by lia.
        destruct (Z.ltb_spec (zlen enc) (zlen enc)); [lia|].
        assert (X : _strip (VBytes enc) d (VBytes (p0 :: ps)) = _strip (VBytes b) d (VBytes (p0 :: ps))).
        { unfold enc. destruct Dd as [->| ->]; cbn [_strip]; now rewrite strip_pad by auto. }
        now rewrite X, St.
  - (* MBytePad *)
    cbn [canon] in H. destruct H as (-> & L & Bc).
    exists (repeat ch (Z.to_nat n)). repeat split.
    + apply Forall_forall. intros x Hx. apply repeat_spec in Hx. now subst.
    + intros s tl O T R. cbn [read]. unfold sbind.
      set (enc := repeat ch (Z.to_nat n)) in *.
      assert (Le : zlen enc = n) by (unfold enc; rewrite zlen_repeat; lia).
      rewrite <- Le. rewrite (sread_prefix _ enc tl O R) by lia. reflexivity.
  - (* MVarArr *)
    cbn [canon] in H1. destruct H1 as (l & -> & F & C).
    destruct (H _ _ _ C) as (e & W & Be & Rd).
    destruct (Forall_RT t el c l H0 F) as (encs & F2).
    exists (e ++ List.concat encs). repeat split.
    + intros out. cbn [write]. unfold sbind, slift. cbn [py_len py_iter]. rewrite W.
      rewrite (write_list_ok el l encs (RT_writes _ _ _ _ _ F2)). now rewrite app_assoc.
    + apply bytes_ok_app; split; auto. eapply RT_concat_bytes; eauto.
    + intros s tl O T R. rewrite <- app_assoc in R. destruct (rest_after s e _ O R) as [R1 O1].
      cbn [read]. unfold sbind, slift. rewrite (Rd s _ O T R). cbn [as_int].
      unfold zlen at 1. rewrite Nat2Z.id.
      rewrite (read_list_ok el t c l encs F2 _ tl O1); auto.
      * unfold sret. now rewrite consume_consume, app_length by auto.
      * now rewrite has_tell_consume.
  - (* MFixArr *)
    cbn [canon] in H0. destruct H0 as (l & -> & F & Ln).
    destruct (Forall_RT t el c l H F) as (encs & F2).
    exists (List.concat encs). repeat split.
    + intros out. cbn [write]. unfold sbind, slift. cbn [py_len py_iter].
      now rewrite (write_list_ok el l encs (RT_writes _ _ _ _ _ F2)).
    + eapply RT_concat_bytes; eauto.
    + intros s tl O T R. cbn [read]. unfold sbind.
      rewrite <- Ln. unfold zlen. rewrite Nat2Z.id.
      rewrite (read_list_ok el t c l encs F2 _ tl O); auto.
  - (* MSumArr *)
    cbn [canon] in H1. destruct H1 as (-> & l & -> & F & Sz & C).
    destruct (H _ _ _ C) as (e & W & Be & Rd).
    destruct (Forall_RT true el c l H0 F) as (encs & F2).
    pose proof (sizes_sum el l encs true c F2) as SM. rewrite SM, zlen_concat in *.
    assert (RM : rmap_list (sizeof el) l = Ok (map zlen encs)).
    { apply rmap_list_ok. clear - F2 Sz. induction F2 as [|x y l encs Hx _ IH]; cbn; constructor.
      - inversion Sz as [|? ? [S1 _] _]; subst. now rewrite S1, (RT_bytes_of _ _ _ _ _ _ Hx).
      - inversion Sz; subst; auto. }
    assert (Pos : Forall (fun e => 0 < zlen e) encs).
    { clear - F2 Sz. induction F2 as [|x y l encs Hx _ IH]; constructor.
      - inversion Sz as [|? ? [_ S2] _]; subst. now rewrite <- (RT_bytes_of _ _ _ _ _ _ Hx).
      - inversion Sz; subst; auto. }
    exists (e ++ List.concat encs). repeat split.
    + intros out. cbn [write]. unfold sbind, slift. cbn [py_iter]. rewrite RM, zlen_concat, W.
      rewrite (write_list_ok el l encs (RT_writes _ _ _ _ _ F2)). now rewrite app_assoc.
    + apply bytes_ok_app; split; auto. eapply RT_concat_bytes; eauto.
    + intros s tl O T R. rewrite <- app_assoc in R. destruct (rest_after s e _ O R) as [R1 O1].
      cbn [read]. unfold sbind, slift. rewrite (Rd s _ O T R). cbn [as_int].
      rewrite (sum_loop_ok el c l encs F2 Pos _ tl); auto.
      * unfold sret. now rewrite consume_consume, app_length by auto.
      * rewrite has_tell_consume. auto.
      * unfold zlen. lia.
  - (* MMap *)
    cbn [canon] in H0. destruct H0 as (w & D1 & D2 & C).
    destruct (H _ _ _ C) as (e & W & Be & Rd).
    exists e. repeat split; auto.
    + intros out. cbn [write]. unfold sbind, slift. rewrite D1. apply W.
    + intros s tl O T R. cbn [read]. unfold sbind, slift. rewrite (Rd s _ O T R). now rewrite D2.
  - (* MStruct *)
    apply canon_struct in H0. destruct H0 as (a & -> & C).
    destruct (fields_RT t cls cctx c a a fs H _ C) as (enc & W & B & Rd).
    exists enc. repeat split; auto.
    + intros out. rewrite write_struct, String.eqb_refl. auto.
    + intros s tl O T R. rewrite read_struct, (Rd s tl O T R). reflexivity.
  - (* MSel *)
    cbn [canon] in H2. destruct d as [d|]; [|tauto]. cbn [opt_all] in H1.
    destruct H2 as (cls & a & k & -> & Nm & Cd & Ck & Hk & r & Pre).
    destruct (H1 _ _ _ Cd) as (e & W & Be & Rd).
    destruct (H _ _ _ Ck) as (ek & Wk & Bk & Rk).
    rewrite (RT_bytes_of _ _ _ _ _ e) in Pre by (repeat split; eauto).
    rewrite (RT_bytes_of _ _ _ _ _ ek) in Pre by (repeat split; eauto).
    exists e. repeat split; auto.
    + intros out. rewrite write_sel, sel_choice_default by auto. apply W.
    + intros s tl O T R. cbn [read]. unfold with_read_ahead. unfold sbind at 1. cbn [set_read_ahead].
      unfold sbind at 1.
      rewrite (Rk (SReadAhead [] true s) (r ++ tl)); cbn [rest stream_ok]; auto; try discriminate.
      2:{ rewrite R, Pre, <- app_assoc. reflexivity. }
      cbn [consume app]. unfold sbind at 1. cbn [set_read_ahead].
      unfold sbind at 1, slift. rewrite Hk. unfold sel_has_key, sel_loop_source. cbn [existsb].
      assert (Lk : (List.length ek <= List.length (rest s))%nat).
      { rewrite R, Pre, !app_length. lia. }
      unfold sbind at 1.
      rewrite (Rd (SReadAhead (firstn (List.length ek) (rest s)) false (consume (List.length ek) s)) tl).
      2:{ cbn [stream_ok]. now apply consume_ok. }
      2:{ intros X; discriminate X. }
      2:{ now rewrite rest_after_peek. }
      cbn [consume]. unfold sbind at 1. cbn [is_read_ahead_empty].
      assert (LE : (List.length ek <= List.length e)%nat).
      { rewrite Pre, app_length. lia. }
      rewrite skipn_all2 by (rewrite firstn_length; lia). rewrite zlen_nil. cbn [Z.eqb negb].
      unfold sret. rewrite firstn_length, Nat.min_l by lia.
      rewrite consume_consume by auto. f_equal. f_equal. lia.
  - (* MFunSel *)
    rename H into IHc. cbn [canon] in H0. destruct H0 as (cls & a & i & -> & At).
    assert (G : exists m', nth_error choices i = Some m' /\ class_choice choices cls = Some m'
              /\ Pm m' /\ canon h false m' c (VObj cls a) /\ rprog_ok (func c)
              /\ forall tl, exists k, (k <= List.length (bytes_of h m' (VObj cls a)))%nat
                   /\ run_rprog (func c) (stream_of (bytes_of h m' (VObj cls a) ++ tl))
                      = (Ok i, consume k (stream_of (bytes_of h m' (VObj cls a) ++ tl)))).
    { revert At. generalize (Ok i) as oi. intros oi. revert i.
      induction IHc as [|m0 r Hm0 _ IH]; intros i At; [tauto|]. destruct i as [|i].
      - destruct At as (Cn & C & Rp & Fn). exists m0. cbn [nth_error class_choice].
        destruct m0; cbn in Cn; try discriminate. injection Cn as ->.
        rewrite String.eqb_refl. repeat split; auto.
      - destruct At as (Cn & At). destruct (IH i At) as (m' & N1 & N2 & N3).
        exists m'. cbn [nth_error class_choice]. split; auto. split; auto.
        destruct m0; auto. cbn in Cn. destruct (String.eqb_spec cls0 cls); auto. congruence. }
    destruct G as (m' & N1 & N2 & Pm' & Cm & Rp & Fn).
    destruct (Pm' _ _ _ Cm) as (e & W & Be & Rd).
    rewrite (RT_bytes_of _ _ _ _ _ e) in Fn by (repeat split; eauto).
    exists e. repeat split; auto.
    + intros out. rewrite write_funsel, N2. apply W.
    + intros s tl O T R. rewrite read_funsel. unfold with_read_ahead, sbind at 1. cbn [set_read_ahead].
      destruct (Fn tl) as (k & Lk & Ek).
      destruct (stream_of_ok (e ++ tl)) as [O2 R2].
      destruct (run_rprog_sim (func c) Rp (SReadAhead [] true s) (stream_of (e ++ tl)))
        as (r & k2 & E1 & E2 & L2); cbn [rest stream_ok]; auto.
      rewrite Ek in E2. injection E2 as <- E2.
      assert (k2 = k).
      { lia. }
      subst k2. clear E2. unfold sbind at 1. rewrite E1. cbn [consume app].
      unfold sbind at 1. cbn [set_read_ahead]. unfold sbind at 1, read_choice. rewrite N1.
      cbn [rest] in L2.
      rewrite (Rd (SReadAhead (firstn k (rest s)) false (consume k s)) tl).
      2:{ cbn [stream_ok]. now apply consume_ok. }
      2:{ intros X; discriminate X. }
      2:{ now rewrite rest_after_peek. }
      cbn [consume]. unfold sbind at 1. cbn [is_read_ahead_empty].
      rewrite skipn_all2 by (rewrite firstn_length; lia). rewrite zlen_nil. cbn [Z.eqb negb].
      unfold sret. rewrite firstn_length, Nat.min_l by lia.
      rewrite consume_consume by auto. f_equal. f_equal. lia.
  - (* FField *)
    cbn [canon_field] in H0. destruct H0 as (C & ->).
    destruct (H _ _ _ C) as (e & W & Be & Rd).
    exists e. split; [|split; [exact Be|]].
    + intros out. cbn [write_field]. apply W.
    + intros s tl O T R. rewrite read_field_field.
      rewrite (Rd s tl O T R). reflexivity.
  - (* FAnon *)
    cbn [canon_field] in H0. destruct H0 as (C & ->).
    destruct (H _ _ _ C) as (e & W & Be & Rd).
    exists e. split; [|split; [exact Be|]].
    + intros out. cbn [write_field]. apply W.
    + intros s tl O T R. rewrite read_field_anon.
      rewrite (Rd s tl O T R). reflexivity.
  - (* FConst *)
    cbn [canon_field] in H0. destruct H0 as (C & Eq & ->).
    destruct (H _ _ _ C) as (e & W & Be & Rd).
    exists e. split; [|split; [exact Be|]].
    + intros out. cbn [write_field]. apply W.
    + intros s tl O T R. rewrite read_field_const.
      rewrite (Rd s tl O T R), Eq. reflexivity.
  - (* FOpt *)
    cbn [canon_field] in H0. destruct H0 as (b & Pr & C). destruct b.
    + destruct C as (Nn & C & ->). destruct (H _ _ _ C) as (e & W & Be & Rd).
      exists e. split; [|split; [exact Be|]].
      * intros out. cbn [write_field]. destruct (field_value n d a) eqn:V; [congruence|..]; apply W.
      * intros s tl O T R. rewrite read_field_opt.
        rewrite Pr. cbn [run_rprog]. unfold slift.
        rewrite (Rd s tl O T R). reflexivity.
    + destruct C as (Nn & ->). exists []. repeat split.
      * intros out. cbn [write_field]. rewrite Nn. unfold sret. now rewrite app_nil_r.
      * constructor.
      * intros s tl O T R. rewrite read_field_opt.
        rewrite Pr. cbn [run_rprog]. unfold slift. cbn [List.length]. now rewrite consume_0.
  - (* FGroup *)
    apply canon_group in H0. destruct (fields_RT _ _ _ _ _ _ fs H _ H0) as (enc & W & B & Rd).
    exists enc. repeat split; auto. intros out. now rewrite write_group.
  - (* FBits *)
    cbn [canon_field] in H. destruct H as (G & A & N).
    destruct (bit_container_ok true _ bs a G A) as (enc & W & B & L & Hd & _).
    exists enc. repeat split; auto. intros s tl O T R. cbn [read_field].
    eapply read_bit_container_ok; eauto.
  - (* FPosBits *)
    cbn [canon_field] in H. destruct H as (G & A & N).
    destruct (bit_container_ok false _ bs a G A) as (enc & W & B & L & Hd & _).
    exists enc. repeat split; auto. intros s tl O T R. cbn [read_field].
    eapply read_bit_container_ok; eauto.
Qed.
End RoundTrip.

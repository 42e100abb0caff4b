(** Field packers and unpackers: strings, byte arrays and lists. *)
From Verif Require Import Base BaseProofs IntCodec CodecSpec Stream Marshal FieldSpec FieldFacts
  Range IoBuffer IoSpec IoProofs IoMutProofs IoInsert IoFacts IoOutput IoViews Serialize SerializeSpec SerializeFacts.
From Coq Require Import ZArith List Bool Lia ZifyBool ZifyNat.
Import ListNotations.
Open Scope Z_scope.
Ltac Zify.zify_post_hook ::= Z.div_mod_to_equations.

(** ** Strings *)
Lemma ascii_ok l : is_ascii l -> ascii_encode l = Ok l /\ ascii_decode l = Ok l.
Proof.
  intros H. unfold ascii_encode, ascii_decode. replace (forallb _ l) with true; [auto|]. symmetry.
  apply forallb_forall. intros c Hc. apply (proj1 (Forall_forall _ _) H) in Hc. lia.
Qed.
Lemma ascii_bad l : ~ is_ascii l -> ascii_encode l = Err UnicodeError /\ ascii_decode l = Err UnicodeError.
Proof.
  intros H. unfold ascii_encode, ascii_decode. destruct (forallb _ l) eqn:E; [|auto]. exfalso. apply H.
  apply Forall_forall. intros c Hc. rewrite forallb_forall in E. apply E in Hc. lia.
Qed.
Lemma ascii_bytes l : is_ascii l -> bytes_ok l.
Proof. intros H. eapply Forall_impl; [|exact H]. unfold is_byte. intros a Ha. cbv beta in Ha. lia. Qed.

Lemma int_size_ok n : 0 <= n -> int_size (Some (8 * n)) = Ok (Some (8 * n)).
Proof. intros H. unfold int_size. now replace ((0 <=? 8 * n) && ((8 * n) mod 8 =? 0)) with true by lia. Qed.

Lemma py_justify_spec j l n c : 0 <= n -> exists r, py_justify j l n (ABytes [c]) = Ok r /\ padded j c n l r.
Proof.
  intros Hn. unfold py_justify, padded. pose proof (zlen_nonneg l). destruct (n - zlen l <=? 0) eqn:E.
  - exists l. split; [reflexivity|]. exists 0%nat, 0%nat. cbn [repeat List.app]. rewrite app_nil_r. split; [auto|].
    split; [lia|]. destruct j; auto.
  - eexists. split; [reflexivity|]. set (p := n - zlen l) in *. destruct j.
    + exists 0%nat, (Z.to_nat p). split; [auto|]. split; [|auto]. rewrite zlen_app, zlen_repeat. lia.
    + exists (Z.to_nat p), 0%nat. cbn [repeat]. rewrite app_nil_r. split; [auto|]. split; [|auto]. rewrite zlen_app, zlen_repeat. lia.
    + set (left := p / 2 + Z.land (Z.land p n) 1). exists (Z.to_nat left), (Z.to_nat (p - left)).
      assert (Hl : Z.land (Z.land p n) 1 = (Z.land p n) mod 2) by (apply (Z.land_ones _ 1); lia).
      assert (Hp : p mod 2 = 0 -> Z.land p n mod 2 = 0).
      { intros Hp. rewrite <- Z.bit0_mod, Z.land_spec. rewrite <- Z.bit0_mod in Hp.
        destruct (Z.testbit p 0); [discriminate|reflexivity]. }
      pose proof (Z.mod_pos_bound (Z.land p n) 2). set (q := Z.land p n) in *.
      assert (Hle : 0 <= left <= p) by (unfold left; lia).
      split; [auto|]. split; [rewrite !zlen_app, !zlen_repeat; lia|]. unfold left. lia.
Qed.

Lemma pack_str_sized j c n s : 0 <= n -> is_ascii s ->
  exists r, pack_str (ABytes [c]) j (Some (8 * n)) (VStr s) = Ok (BArr r) /\ padded j c n s r.
Proof.
  intros Hn Hs. unfold pack_str. cbn [strarg_len]. change (zlen [c] =? 1) with true. cbn [passert rbind].
  rewrite int_size_ok by auto. cbn [rbind]. rewrite (proj1 (ascii_ok s Hs)). cbn [rbind].
  replace (8 * n / 8) with n by lia. destruct (py_justify_spec j s n c Hn) as (r & E & P). rewrite E. exists r. auto.
Qed.
Lemma pack_str_unsized j c s : is_ascii s -> pack_str (ABytes [c]) j None (VStr s) = Ok (BArr s).
Proof.
  intros Hs. unfold pack_str. change (strarg_len (ABytes [c]) =? 1) with true. cbn [passert rbind int_size].
  now rewrite (proj1 (ascii_ok s Hs)).
Qed.
Lemma pack_str_text_padding j c n s : 0 <= n -> is_ascii s ->
  pack_str (AText [c]) j (Some (8 * n)) (VStr s) = Err TypeError.
Proof.
  intros Hn Hs. unfold pack_str. change (strarg_len (AText [c]) =? 1) with true. cbn [passert rbind].
  rewrite int_size_ok by auto. cbn [rbind]. now rewrite (proj1 (ascii_ok s Hs)).
Qed.
Lemma pack_str_not_ascii p j n s : strarg_len p = 1 -> 0 <= n -> ~ is_ascii s ->
  pack_str p j (Some (8 * n)) (VStr s) = Err UnicodeError.
Proof.
  intros Hp Hn Hs. unfold pack_str. rewrite Hp. cbn [passert Z.eqb Pos.eqb rbind].
  rewrite int_size_ok by auto. cbn [rbind]. now rewrite (proj1 (ascii_bad s Hs)).
Qed.

Lemma strip_dirs j : let d := match j with JLeft => PRight | JRight => PLeft | JCenter => PBoth end in
  trims_left d = strip_left j /\ trims_right d = strip_right j.
Proof. destruct j; auto. Qed.
Lemma py_strip_spec j set l core : trims (strip_left j) (strip_right j) set l core ->
  py_strip j l (ABytes set) = Ok core.
Proof.
  intros H. unfold py_strip. f_equal. destruct (strip_dirs j) as (E1 & E2). rewrite <- E1, <- E2 in H.
  now apply trims_strip.
Qed.
Lemma field_text_exists j strip c l : exists core, field_text j strip c l core.
Proof.
  set (d := match j with JLeft => PRight | JRight => PLeft | JCenter => PBoth end).
  destruct (strip_dirs j) as (E1 & E2). fold d in E1, E2.
  exists (strip_bytes d [c] (strip_bytes d strip l)), (strip_bytes d strip l). rewrite <- E1, <- E2. split; apply strip_trims.
Qed.

(** What is read: the first [n] bytes of the view, trimmed. *)
Lemma unpack_str_sized j strip c n b core : 0 <= n <= blen b -> buf_ok b -> is_view b ->
  field_text j strip c (firstn (Z.to_nat n) (bytes_of_bits (buf_bits b))) core ->
  unpack_str (ABytes [c]) (ABytes strip) j (Some (8 * n)) b
  = (let* s := ascii_decode core in Ok (VStr s, Some (8 * blen b))).
Proof.
  intros Hn K V (mid & T1 & T2). unfold unpack_str. change (strarg_len (ABytes [c]) =? 1) with true. cbn [passert rbind].
  rewrite int_size_ok by lia. cbn [rbind]. replace (8 * n / 8) with n by lia.
  replace (negb (8 * n =? 0) && (blen b <? n)) with false by lia. cbn [rbind].
  destruct (prefix_bytes_any b n K V) as (p & l & P1 & P2 & _ & _ & El); [lia|]. rewrite P1. cbn [rbind]. rewrite P2. cbn [rbind].
  rewrite El, (py_strip_spec j strip _ mid T1). cbn [rbind]. rewrite (py_strip_spec j [c] _ core T2). reflexivity.
Qed.
Lemma unpack_str_short p strip j n b : strarg_len p = 1 -> blen b < n -> buf_ok b ->
  unpack_str p strip j (Some (8 * n)) b = Err ValueError.
Proof.
  intros Hp Hn K. unfold unpack_str. rewrite Hp. cbn [passert Z.eqb Pos.eqb rbind].
  pose proof (blength_nonneg b K). pose proof (blen_cdiv b) as Eb. unfold cdiv8 in Eb.
  rewrite int_size_ok by lia. cbn [rbind]. replace (8 * n / 8) with n by lia.
  replace (negb (8 * n =? 0) && (blen b <? n)) with true by lia. reflexivity.
Qed.
Lemma unpack_str_text_strip p strip j n b : strarg_len p = 1 -> 0 <= n <= blen b -> buf_ok b -> is_view b ->
  unpack_str p (AText strip) j (Some (8 * n)) b = Err TypeError.
Proof.
  intros Hp Hn K V. unfold unpack_str. rewrite Hp. cbn [passert Z.eqb Pos.eqb rbind].
  rewrite int_size_ok by lia. cbn [rbind]. replace (8 * n / 8) with n by lia.
  replace (negb (8 * n =? 0) && (blen b <? n)) with false by lia. cbn [rbind].
  destruct (prefix_bytes_any b n K V) as (q & l & P1 & P2 & _ & _ & El); [lia|]. rewrite P1. cbn [rbind]. rewrite P2. reflexivity.
Qed.
Lemma unpack_str_unsized p strip j b : strarg_len p = 1 -> buf_ok b -> is_view b ->
  unpack_str p strip j None b
  = (let* s := ascii_decode (bytes_of_bits (buf_bits b)) in Ok (VStr s, Some (8 * blen b))).
Proof.
  intros Hp K V. unfold unpack_str. rewrite Hp. cbn [passert Z.eqb Pos.eqb rbind int_size].
  destruct (slice_whole b K V) as (s & S1 & S2 & S3 & S4). rewrite S1. cbn [rbind]. unfold to_bytes.
  rewrite buf_bytes_spec by auto. cbn [rbind]. now rewrite S4.
Qed.

Lemma in_repeat (c x : Z) n : In x (repeat c n) -> x = c.
Proof. intros H. apply repeat_spec in H. exact H. Qed.
Lemma Forall_repeat_in (c : Z) n set : In c set -> Forall (fun x => In x set) (repeat c n).
Proof. intros H. apply Forall_forall. intros x Hx. now rewrite (in_repeat _ _ _ Hx). Qed.
Lemma repeat_last (c : Z) n : repeat c (S n) = repeat c n ++ [c].
Proof. induction n as [|n IH]; [reflexivity|]. cbn [repeat List.app] in *. now rewrite <- IH. Qed.

(** A padded string that needs no stripping is found again. *)
Lemma padded_text j strip c n s r : padded j c n s r -> no_strip j (c :: strip) s -> field_text j strip c r s.
Proof.
  intros (a & b & -> & _ & Hj) (N1 & N2).
  assert (Tc : forall set, In c set -> (forall x, In x set -> In x (c :: strip)) ->
    trims (strip_left j) (strip_right j) set (repeat c a ++ s ++ repeat c b) s).
  { intros set Hc Hs. exists (repeat c a), (repeat c b). split; [auto|].
    split; [now apply Forall_repeat_in|]. split; [now apply Forall_repeat_in|]. split.
    - destruct (strip_left j) eqn:E.
      + intros x t Ex Hx. eapply N1; eauto.
      + destruct j; try discriminate. subst a. reflexivity.
    - destruct (strip_right j) eqn:E.
      + intros x t Ex Hx. eapply N2; eauto.
      + destruct j; try discriminate. subst b. reflexivity. }
  destruct (in_dec Z.eq_dec c strip) as [Hc|Hc].
  - exists s. split.
    + apply Tc; auto. intros x Hx. now right.
    + exists [], []. cbn [List.app]. rewrite app_nil_r. split; [auto|]. split; [constructor|]. split; [constructor|]. split.
      * destruct (strip_left j); auto. intros x t Ex [<-|[]]. eapply N1; eauto. now left.
      * destruct (strip_right j); auto. intros x t Ex [<-|[]]. eapply N2; eauto. now left.
  - exists (repeat c a ++ s ++ repeat c b). split.
    + exists [], []. cbn [List.app]. rewrite app_nil_r. split; [auto|]. split; [constructor|]. split; [constructor|]. split.
      * destruct (strip_left j) eqn:El; auto. intros x t Ex Hx. destruct a as [|a].
        -- cbn [repeat List.app] in Ex. destruct s as [|y s].
           ++ cbn [List.app] in Ex. destruct b; [discriminate|]. cbn in Ex. injection Ex as <- _. contradiction.
           ++ cbn in Ex. injection Ex as <- _. eapply N1; eauto. now right.
        -- cbn in Ex. injection Ex as <- _. contradiction.
      * destruct (strip_right j) eqn:Er; auto. intros x t Ex Hx. destruct b as [|b].
        -- cbn [repeat] in Ex. rewrite app_nil_r in Ex. destruct s as [|y s].
           ++ rewrite app_nil_r in Ex. destruct a; [destruct t; discriminate|]. rewrite repeat_last in Ex.
              apply app_inj_tail in Ex as [_ <-]. contradiction.
           ++ destruct (exists_last (l := y :: s)) as (s' & z & Ez); [discriminate|]. rewrite Ez in *.
              rewrite app_assoc in Ex. apply app_inj_tail in Ex as [_ <-]. eapply N2; eauto. now right.
        -- rewrite repeat_last, !app_assoc in Ex. apply app_inj_tail in Ex as [_ <-]. contradiction.
    + apply Tc; [now left|]. intros x [<-|[]]. now left.
Qed.

Lemma padded_ok j c n s r : padded j c n s r -> is_byte c -> bytes_ok s -> bytes_ok r.
Proof.
  intros (a & b & -> & _) Hc Hs. apply bytes_ok_app. split; [|apply bytes_ok_app; split; auto]; apply Forall_forall;
    intros x Hx; now rewrite (in_repeat _ _ _ Hx).
Qed.

(** The bytes of a view that starts with given bytes. *)
Lemma bytes_prefix b l rest : view_with b (bits_of_bytes l ++ rest) -> bytes_ok l ->
  firstn (length l) (bytes_of_bits (buf_bits b)) = l /\ zlen l <= blen b.
Proof.
  intros (K & V & E) B. destruct (bytes_of_bits_spec (buf_bits b)) as (B1 & L1 & V1).
  pose proof (zlen_nonneg l). pose proof (zlen_nonneg rest).
  assert (Hl : 8 * zlen l <= blength b) by (rewrite <- buf_bits_len, E, zlen_app, bits_of_bytes_length by auto; lia).
  assert (Hb : zlen l <= blen b) by (rewrite blen_cdiv; unfold cdiv8; lia).
  rewrite buf_bits_len, <- blen_cdiv in L1 by auto. split; [|auto].
  replace (length l) with (Z.to_nat (zlen l)) by (unfold zlen; lia).
  apply bytes_ext; auto.
  - now apply bytes_ok_firstn.
  - rewrite zlen_firstn. lia.
  - rewrite zlen_firstn. intros i Hi. rewrite bit_at_firstn by lia. replace (i <? 8 * zlen l) with true by lia.
    rewrite V1, E, bnth_app, bits_of_bytes_length. replace (i <? 8 * zlen l) with true by lia. apply bnth_bytes.
Qed.

Lemma str_field_roundtrip j strip c n s : 0 <= n -> zlen s <= n -> is_byte c -> is_ascii s -> no_strip j (c :: strip) s ->
  exists r, pack_str (ABytes [c]) j (Some (8 * n)) (VStr s) = Ok (BArr r) /\ bytes_ok r /\ zlen r = n /\ padded j c n s r
    /\ forall b rest, view_with b (bits_of_bytes r ++ rest) ->
         unpack_str (ABytes [c]) (ABytes strip) j (Some (8 * n)) b = Ok (VStr s, Some (8 * blen b)).
Proof.
  intros Hn Hs Hc Ha Nt. destruct (pack_str_sized j c n s Hn Ha) as (r & E & P). exists r. split; [auto|].
  assert (B : bytes_ok r) by (eapply padded_ok; eauto using ascii_bytes). split; [auto|].
  assert (L : zlen r = n) by (destruct P as (a & b & _ & L & _); lia). split; [auto|]. split; [auto|].
  intros b rest Hb. destruct (bytes_prefix b r rest Hb B) as (F & Lb). pose proof Hb as (K & V & _).
  rewrite (unpack_str_sized j strip c n b s); auto; [|lia|].
  - rewrite (proj2 (ascii_ok s Ha)). reflexivity.
  - replace (Z.to_nat n) with (length r) by (unfold zlen in L; lia). rewrite F. eapply padded_text; eauto.
Qed.

(** ** Byte arrays *)
Lemma bytes_of_pad l : bytes_of_bits (pad_to_byte l) = bytes_of_bits l.
Proof.
  symmetry. apply bytes_of_bits_unique.
  - apply bytes_of_bits_spec.
  - destruct (bytes_of_bits_spec l) as (_ & L & _). rewrite L, zlen_pad. unfold cdiv8. lia.
  - intros i _. destruct (bytes_of_bits_spec l) as (_ & _ & W). now rewrite W, bnth_pad.
Qed.

Lemma unpack_bytearray_spec b : buf_ok b -> is_view b ->
  exists l, unpack_bytearray b = Ok (VBytes l, Some (8 * blen b)) /\ bytes_ok l /\ zlen l = blen b
    /\ firstn (Z.to_nat (blength b)) (bits_of_bytes l) = buf_bits b.
Proof.
  intros K V. destruct (to_bytearray_spec b K V) as (r & R1 & R2 & R3 & R4). unfold unpack_bytearray. rewrite R1. cbn [rbind].
  rewrite buf_bytes_spec by auto. cbn [rbind]. rewrite R3. eexists. split; [reflexivity|].
  destruct (bytes_of_bits_spec (buf_bits r)) as (B & L & W). split; [auto|].
  split; [rewrite L, buf_bits_len, <- blen_cdiv by auto; auto|].
  rewrite <- R4. pose proof (blength_nonneg b K). apply bnth_ext.
  - rewrite !zlen_firstn, bits_of_bytes_length, L, zlen_pad. lia.
  - intros i Hi. rewrite zlen_firstn in Hi. rewrite !bnth_firstn, bnth_bytes, W, bnth_pad by lia. reflexivity.
Qed.
Lemma unpack_bytearray_bytes b l : view_with b (bits_of_bytes l) -> bytes_ok l ->
  unpack_bytearray b = Ok (VBytes l, Some (8 * zlen l)).
Proof.
  intros (K & V & E) B. destruct (unpack_bytearray_spec b K V) as (m & M1 & M2 & M3 & M4).
  assert (Hl : blength b = 8 * zlen l) by (rewrite <- buf_bits_len, E, bits_of_bytes_length by auto; auto).
  assert (Hb : blen b = zlen l) by (rewrite blen_cdiv, Hl; unfold cdiv8; lia).
  rewrite M1, Hb. rewrite Hb in M3. rewrite firstn_all2 in M4.
  - rewrite E in M4. rewrite <- (bytes_of_bits_of_bytes m), M4, bytes_of_bits_of_bytes by auto. reflexivity.
  - pose proof (bits_of_bytes_length m). unfold zlen in *. lia.
Qed.
(** A byte-aligned range is extended to whole bytes of the buffer. *)
Lemma unpack_bytearray_neighbour l a e : bytes_ok l -> 0 <= a -> 8 * a <= e <= 8 * zlen l ->
  unpack_bytearray (BView (BArr l) (8 * a) e) = Ok (VBytes (py_slice l a (cdiv8 e)), Some (8 * (cdiv8 e - a))).
Proof.
  intros B Ha He. unfold unpack_bytearray, to_bytearray. replace ((8 * a) mod 8 =? 0) with true by lia.
  cbn [buf_slice_bytes rbind buf_bytes blen]. replace (8 * a / 8) with a by lia.
  rewrite zlen_py_slice by (unfold cdiv8; lia). reflexivity.
Qed.

(** ** Lists *)
Lemma pack_elems_spec f l : forall bits acc, ba_ok acc -> Forall2 (packs_as f) l bits ->
  exists x, pack_elems f l acc = Ok x /\ ba_ok x /\ ba_start x = ba_start acc /\ ba_bits x = ba_bits acc ++ concat_bits bits
    /\ (ba_clean acc -> ba_clean x).
Proof.
  induction l as [|o l IH]; intros bits acc K F; inversion F as [|? b1 ? bs (p & P1 & P2 & P3) F']; subst; cbn [pack_elems].
  - exists acc. split; [auto|]. split; [auto|]. split; [auto|]. split; [cbn; now rewrite app_nil_r|auto].
  - rewrite P1. cbn [rbind]. unfold run_ba.
    assert (G : exists x', ba_extend (match p with BArr bytes => BVSeq bytes | v => BVView v end) acc = (Ok tt, x') /\ ba_ok x'
       /\ ba_start x' = ba_start acc /\ ba_bits x' = ba_bits acc ++ buf_bits p /\ (ba_clean acc -> ba_clean x')).
    { destruct p as [bytes|i s t]; [now apply extend_bytes|now apply extend_view]. }
    destruct G as (x' & X1 & X2 & X3 & X4 & X5). rewrite X1. cbn [rbind].
    destruct (IH bs x' X2 F') as (x & Y1 & Y2 & Y3 & Y4 & Y5). exists x. split; [auto|]. split; [auto|]. split; [congruence|].
    split; [|auto]. rewrite Y4, X4, <- app_assoc. reflexivity.
Qed.
Lemma pack_list_spec f l bits : Forall2 (packs_as f) l bits ->
  exists b, pack_list f (VList l) = Ok b /\ view_with b (concat_bits bits).
Proof.
  intros F. destruct (pack_elems_spec f l bits (new_baa [])) as (x & X1 & X2 & X3 & X4 & _); auto.
  { apply new_baa_ok. constructor. }
  unfold pack_list. rewrite X1. cbn [rbind]. eexists. split; [reflexivity|]. split; [exact X2|]. split; [exact I|].
  unfold ba_bits in X4 at 1. rewrite X4, new_baa_bits by constructor. reflexivity.
Qed.
(** The first element that fails. *)
Lemma pack_list_fails f pre bits v post e : Forall2 (packs_as f) pre bits -> f v = Err e ->
  pack_list f (VList (pre ++ v :: post)) = Err e.
Proof.
  intros F E. unfold pack_list. cut (forall acc, ba_ok acc -> pack_elems f (pre ++ v :: post) acc = Err e).
  { intros G. rewrite G; [reflexivity|]. apply new_baa_ok. constructor. }
  revert bits F. induction pre as [|o l IH]; intros bits F acc K; inversion F as [|? b1 ? bs P F']; subst; cbn [pack_elems List.app].
  - rewrite E. reflexivity.
  - destruct (pack_elems_spec f [o] [b1] acc K) as (x & X1 & X2 & _); [auto|]. cbn [pack_elems] in X1.
    destruct (f o) as [p|e']; cbn [rbind] in *; [|discriminate]. unfold run_ba in *.
    destruct (ba_extend _ acc) as [[|] x']; cbn [rbind] in *; [|discriminate]. injection X1 as ->. now apply (IH bs).
Qed.

Lemma slice_from b k last : buf_ok b -> is_view b -> 0 <= k -> (match last with Some w => blength b <= w | None => True end) ->
  exists s, buf_slice b (Some k) last = Ok s /\ view_with s (skipn (Z.to_nat k) (buf_bits b)).
Proof.
  intros K V H Hl. destruct (slice_suffix b k K V H) as (s & S1 & S2 & S3 & S4).
  exists s. split; [|split; auto]. rewrite <- S1. destruct last as [w|]; [|reflexivity].
  destruct b as [|i st sp]; [destruct V|]. unfold buf_slice, view_slice, key_to_range. cbn [blength] in Hl.
  pose proof K as (_ & H1 & H2 & _).
  replace (translate_offset st sp w) with (translate_offset st sp (sp - st)); [reflexivity|].
  unfold translate_offset. destruct (w <? 0) eqn:E1, (sp - st <? 0) eqn:E2; lia.
Qed.

(** The loop reads the elements it finds. *)
Lemma unpack_loop_reads f b last : buf_ok b -> is_view b -> (match last with Some w => blength b <= w | None => True end) ->
  forall l bits rest pre n fuel i acc,
  Forall2 (unpacks_from f) l bits -> Forall (fun x => 0 < zlen x) bits ->
  buf_bits b = pre ++ concat_bits bits ++ rest ->
  (match n with Some k => k = i + zlen l | None => rest = [] end) ->
  (length l <= fuel)%nat ->
  unpack_loop f b n last fuel (zlen pre) i acc = Some (Ok (acc ++ l, zlen pre + zlen (concat_bits bits))).
Proof.
  intros K V Hw l. induction l as [|v l IH]; intros bits rest pre n fuel i acc F P E Hn Hf;
    inversion F as [|? b1 ? bs U F']; subst.
  - assert (G : (zlen pre <? blength b) && match n with None => true | Some k => i <? k end = false).
    { destruct n as [k|].
      - rewrite zlen_nil in Hn. replace (i <? k) with false by lia. apply andb_false_r.
      - rewrite <- buf_bits_len, E by auto. subst rest. cbn [concat_bits List.concat]. rewrite !zlen_app, zlen_nil.
        now replace (zlen pre <? zlen pre + (0 + 0)) with false by lia. }
    destruct fuel; cbn [unpack_loop]; rewrite G; cbn [concat_bits List.concat]; rewrite app_nil_r, zlen_nil, Z.add_0_r; reflexivity.
  - inversion P as [|? ? P1 P2]; subst. destruct fuel as [|fuel]; cbn [length] in Hf; [lia|]. cbn [unpack_loop].
    cbn [concat_bits List.concat] in E |- *. fold (concat_bits bs) in E |- *. rewrite <- app_assoc in E.
    assert (G : (zlen pre <? blength b) && match n with None => true | Some k => i <? k end = true).
    { apply andb_true_intro. split.
      - rewrite <- buf_bits_len, E, !zlen_app by auto. pose proof (zlen_nonneg (concat_bits bs)). pose proof (zlen_nonneg rest). lia.
      - destruct n as [k|]; auto. rewrite zlen_cons in Hn. pose proof (zlen_nonneg l). lia. }
    rewrite G. destruct (slice_from b (zlen pre) last K V (zlen_nonneg _) Hw) as (s & S1 & S2). rewrite S1. cbn [rbind].
    rewrite E in S2. replace (Z.to_nat (zlen pre)) with (length pre) in S2 by (unfold zlen; lia).
    rewrite skipn_app, skipn_all, Nat.sub_diag, skipn_O in S2. cbn [List.app] in S2. rewrite (U i s _ S2).
    rewrite <- zlen_app. rewrite (IH bs rest (pre ++ b1) n fuel (i + 1) (acc ++ [v])); auto.
    + do 3 f_equal; [now rewrite <- app_assoc|]. rewrite !zlen_app. lia.
    + rewrite E, <- app_assoc. reflexivity.
    + destruct n; auto. rewrite zlen_cons in Hn. lia.
    + lia.
Qed.

Lemma concat_len bits : Forall (fun x : list bool => 0 < zlen x) bits -> zlen bits <= zlen (concat_bits bits).
Proof.
  induction 1 as [|x l Hx _ IH]; [reflexivity|]. cbn [concat_bits List.concat]. fold (concat_bits l). rewrite zlen_cons, zlen_app. lia.
Qed.

Lemma unpack_list_all f b last l bits : view_with b (concat_bits bits) -> Forall2 (unpacks_from f) l bits ->
  Forall (fun x => 0 < zlen x) bits -> (match last with Some w => blength b <= w | None => True end) ->
  unpack_list f None last b = Ok (VList l, Some (zlen (concat_bits bits))).
Proof.
  intros (K & V & E) F P Hw. unfold unpack_list, unpack_list_n.
  assert (Fs : fractional_size last = Ok last).
  { destruct last as [w|]; [|reflexivity]. apply fractional_ok. pose proof (blength_nonneg b K). lia. }
  rewrite Fs. rewrite (unpack_loop_reads f b last K V Hw l bits [] [] None _ 0 []); auto.
  - now rewrite E, app_nil_r.
  - unfold list_fuel. rewrite <- buf_bits_len, E by auto. pose proof (concat_len bits P). pose proof (Forall2_len _ _ _ F).
    unfold zlen in *. lia.
Qed.
Lemma unpack_list_count f b last l bits rest : view_with b (concat_bits bits ++ rest) -> Forall2 (unpacks_from f) l bits ->
  Forall (fun x => 0 < zlen x) bits -> (match last with Some w => blength b <= w | None => True end) ->
  unpack_list f (Some (zlen l)) last b = Ok (VList l, Some (zlen (concat_bits bits))).
Proof.
  intros (K & V & E) F P Hw. unfold unpack_list, unpack_list_n.
  assert (Fs : fractional_size last = Ok last).
  { destruct last as [w|]; [|reflexivity]. apply fractional_ok. pose proof (blength_nonneg b K). lia. }
  rewrite Fs. rewrite (unpack_loop_reads f b last K V Hw l bits rest [] (Some (zlen l)) _ 0 []); auto.
  unfold list_fuel, zlen. lia.
Qed.

(** Exactly the elements behind each other, until the end or the count is reached. *)
Lemma unpack_loop_elements f b n last fuel : forall offset i acc l offset',
  unpack_loop f b n last fuel offset i acc = Some (Ok (l, offset')) ->
  exists l', l = acc ++ l' /\ elements f b last i offset l' offset'
    /\ (blength b <= offset' \/ exists k, n = Some k /\ k <= i + zlen l').
Proof.
  induction fuel as [|fuel IH]; intros offset i acc l offset' H; cbn [unpack_loop] in H;
    destruct ((offset <? blength b) && match n with None => true | Some k => i <? k end) eqn:G.
  - discriminate.
  - injection H as <- <-. exists []. rewrite app_nil_r. split; [auto|]. split; [constructor|].
    destruct n as [k|]; [|left; lia]. rewrite zlen_nil. destruct (i <? k) eqn:Ek; [left; lia|]. right. exists k. split; [auto|lia].
  - destruct (buf_slice b (Some offset) last) as [s|e] eqn:Es; cbn [rbind] in H; [|discriminate].
    destruct (f i s) as [[v [len|]]|e] eqn:Ef; try discriminate.
    apply IH in H. destruct H as (l' & -> & El & Hs). exists (v :: l'). split; [now rewrite <- app_assoc|].
    split; [econstructor; eauto|]. destruct Hs as [Hs|(k & Hk & Hs)]; [auto|]. right. exists k. split; [auto|]. rewrite zlen_cons. lia.
  - injection H as <- <-. exists []. rewrite app_nil_r. split; [auto|]. split; [constructor|].
    destruct n as [k|]; [|left; lia]. rewrite zlen_nil. destruct (i <? k) eqn:Ek; [left; lia|]. right. exists k. split; [auto|lia].
Qed.
Lemma unpack_loop_count f b k last fuel : forall offset i acc l offset',
  unpack_loop f b (Some k) last fuel offset i acc = Some (Ok (l, offset')) -> zlen l <= zlen acc + Z.max 0 (k - i).
Proof.
  induction fuel as [|fuel IH]; intros offset i acc l offset' H; cbn [unpack_loop] in H;
    destruct ((offset <? blength b) && (i <? k)) eqn:G; try discriminate; try (injection H as <- <-; lia).
  destruct (buf_slice b (Some offset) last) as [s|e] eqn:Es; cbn [rbind] in H; [|discriminate].
  destruct (f i s) as [[v [len|]]|e] eqn:Ef; try discriminate.
  apply IH in H. rewrite zlen_app, zlen_cons, zlen_nil in H. lia.
Qed.

Lemma unpack_list_result f n last b v size : unpack_list f n last b = Ok (v, size) ->
  exists l offset, v = VList l /\ size = Some offset /\ elements f b last 0 0 l offset
    /\ (blength b <= offset \/ exists k, n = Some k /\ k <= zlen l)
    /\ (forall k, n = Some k -> zlen l <= Z.max 0 k).
Proof.
  unfold unpack_list, unpack_list_n. destruct (fractional_size last) as [w|e] eqn:Ew; [|discriminate].
  assert (w = last) as ->.
  { destruct last as [x|]; cbn in Ew; [|congruence]. destruct (0 <=? x); cbn in Ew; congruence. }
  destruct (unpack_loop f b n last (list_fuel n b) 0 0 []) as [[[l offset]|e]|] eqn:E; try discriminate.
  intros H. injection H as <- <-. exists l, offset. destruct (unpack_loop_elements _ _ _ _ _ _ _ _ _ _ E) as (l' & -> & El & Hs).
  cbn [List.app] in *. split; [auto|]. split; [auto|]. split; [auto|]. split.
  - destruct Hs as [Hs|(k & Hk & Hs)]; [auto|]. right. exists k. split; [auto|lia].
  - intros k ->. apply unpack_loop_count in E. rewrite zlen_nil in E. lia.
Qed.

(** ** Termination *)
Lemma unpack_loop_more f b n last fuel : forall offset i acc r, unpack_loop f b n last fuel offset i acc = Some r ->
  forall more, unpack_loop f b n last (fuel + more) offset i acc = Some r.
Proof.
  induction fuel as [|fuel IH]; intros offset i acc r H more; cbn [unpack_loop Nat.add] in *.
  - destruct ((offset <? blength b) && _) eqn:G; [discriminate|]. destruct more; cbn [unpack_loop]; now rewrite G.
  - destruct ((offset <? blength b) && _) eqn:G; [|auto].
    destruct (let* s := buf_slice b (Some offset) last in f i s) as [[v [len|]]|e]; auto.
Qed.
Lemma unpack_list_more f n last fuel b r : unpack_list_n f n last fuel b = Some r ->
  forall more, unpack_list_n f n last (fuel + more) b = Some r.
Proof.
  unfold unpack_list_n. destruct (fractional_size last); [|auto]. intros H more.
  destruct (unpack_loop f b n a fuel 0 0 []) eqn:E; [|discriminate]. now rewrite (unpack_loop_more _ _ _ _ _ _ _ _ _ E more).
Qed.

Lemma unpack_loop_consumes f b n last : consumes f -> forall fuel offset i acc, blength b - offset <= Z.of_nat fuel ->
  unpack_loop f b n last fuel offset i acc <> None.
Proof.
  intros C fuel. induction fuel as [|fuel IH]; intros offset i acc Hf; cbn [unpack_loop];
    destruct ((offset <? blength b) && _) eqn:G; try discriminate; [lia|].
  destruct (buf_slice b (Some offset) last) as [s|e] eqn:Es; cbn [rbind]; [|discriminate].
  destruct (f i s) as [[v [len|]]|e] eqn:Ef; try discriminate. apply C in Ef. apply IH. lia.
Qed.
Lemma unpack_loop_counted f b k last : forall fuel offset i acc, k - i <= Z.of_nat fuel ->
  unpack_loop f b (Some k) last fuel offset i acc <> None.
Proof.
  intros fuel. induction fuel as [|fuel IH]; intros offset i acc Hf; cbn [unpack_loop];
    destruct ((offset <? blength b) && (i <? k)) eqn:G; try discriminate; [lia|].
  destruct (buf_slice b (Some offset) last) as [s|e] eqn:Es; cbn [rbind]; [|discriminate].
  destruct (f i s) as [[v [len|]]|e] eqn:Ef; try discriminate. apply IH. lia.
Qed.
Lemma unpack_list_ends f n last b : consumes f \/ n <> None -> exists fuel r, unpack_list_n f n last fuel b = Some r.
Proof.
  intros H. exists (list_fuel n b). unfold unpack_list_n. destruct (fractional_size last) as [w|e]; [|eauto].
  assert (unpack_loop f b n w (list_fuel n b) 0 0 [] <> None) as G.
  { destruct n as [k|].
    - apply unpack_loop_counted. unfold list_fuel. lia.
    - destruct H as [C|C]; [|congruence]. apply unpack_loop_consumes; auto. unfold list_fuel. lia. }
  destruct (unpack_loop f b n w (list_fuel n b) 0 0 []) as [[[l o]|e]|]; eauto. congruence.
Qed.

(** An element that uses nothing before the end of the buffer. *)
Lemma loop_stuck f b last offset s : buf_slice b (Some offset) last = Ok s -> offset < blength b ->
  forall fuel i acc, (forall j, i <= j -> exists v, f j s = Ok (v, Some 0)) ->
  unpack_loop f b None last fuel offset i acc = None.
Proof.
  intros Es Ho fuel. induction fuel as [|fuel IH]; intros i acc H; cbn [unpack_loop];
    replace ((offset <? blength b) && true) with true by lia; [reflexivity|].
  rewrite Es. cbn [rbind]. destruct (H i) as (v & Ev); [lia|]. rewrite Ev, Z.add_0_r. apply IH. intros j Hj. apply H. lia.
Qed.
Lemma elements_stuck f b last i0 offset0 l offset s : elements f b last i0 offset0 l offset ->
  (forall k, (k <= length l)%nat -> forall o, elements f b last i0 offset0 (firstn k l) o -> o < blength b) ->
  buf_slice b (Some offset) last = Ok s -> (forall j, exists v, f j s = Ok (v, Some 0)) ->
  forall fuel acc, unpack_loop f b None last fuel offset0 i0 acc = None.
Proof.
  intros El. induction El as [i o|i o s1 v len l o' Es Ev El IH]; intros Hlt Ss Hs fuel acc.
  - eapply loop_stuck; eauto. apply (Hlt 0%nat); [cbn; lia|]. constructor.
  - assert (Ho : o < blength b) by (apply (Hlt 0%nat); [lia|constructor]).
    destruct fuel as [|fuel]; cbn [unpack_loop]; replace ((o <? blength b) && true) with true by lia; [reflexivity|].
    rewrite Es. cbn [rbind]. rewrite Ev. apply IH; auto. intros k Hk o2 E2. apply (Hlt (S k)); [cbn; lia|].
    cbn [firstn]. econstructor; eauto.
Qed.

(** For unpackers that ignore the index and do not go back, running out of rounds means never
    returning. *)
Lemma unpack_stuck f b last : ignores_index f -> never_back f -> forall fuel offset i acc,
  blength b - offset <= Z.of_nat fuel -> unpack_loop f b None last fuel offset i acc = None ->
  forall fuel', unpack_loop f b None last fuel' offset i acc = None.
Proof.
  intros Hi Hb fuel. induction fuel as [|fuel IH]; intros offset i acc Hf H fuel'; cbn [unpack_loop] in H;
    destruct ((offset <? blength b) && true) eqn:G; try discriminate; [lia|].
  destruct (buf_slice b (Some offset) last) as [s|e] eqn:Es; cbn [rbind] in H; [|discriminate].
  destruct (f i s) as [[v [len|]]|e] eqn:Ef; try discriminate. pose proof (Hb _ _ _ _ Ef).
  destruct (Z.eq_dec len 0) as [->|Hl].
  - eapply loop_stuck; eauto; [lia|]. intros j _. exists v. rewrite (Hi j i). exact Ef.
  - destruct fuel' as [|fuel']; cbn [unpack_loop]; rewrite G; [reflexivity|]. rewrite Es. cbn [rbind]. rewrite Ef.
    apply IH; auto. lia.
Qed.
Lemma loop_no_diverge f b w : buf_ok b -> is_view b -> (forall i s e, f i s = Err e -> e <> Diverges) ->
  forall fuel n o i acc, unpack_loop f b n w fuel o i acc <> Some (Err Diverges).
Proof.
  intros K V Hd fuel. induction fuel as [|fuel IH]; intros n o i acc E; cbn [unpack_loop] in E;
    destruct ((o <? blength b) && _); try discriminate.
  destruct (buf_slice b (Some o) w) as [s|e] eqn:Es; cbn [rbind] in E.
  - destruct (f i s) as [[v [len|]]|e] eqn:Ef; try discriminate.
    + eapply IH; eauto.
    + injection E as ->. eapply Hd; eauto.
  - injection E as ->. destruct (buf_slice_spec b (Some o) w K V) as (S1 & S2).
    destruct (Z_le_gt_dec (py_clamp (zlen (buf_bits b)) o) (py_clamp (zlen (buf_bits b)) (match w with Some x => x | None => zlen (buf_bits b) end))) as [L|L].
    + destruct S1 as (r & R & _); [exact L|]. congruence.
    + rewrite S2 in Es; [discriminate|]. unfold slice_in_order. lia.
Qed.
Lemma unpack_list_diverges f last b : ignores_index f -> never_back f ->
  (forall i s e, f i s = Err e -> e <> Diverges) -> buf_ok b -> is_view b ->
  (unpack_list f None last b = Err Diverges <-> forall fuel, unpack_list_n f None last fuel b = None).
Proof.
  intros Hi Hb Hd K V. unfold unpack_list. split.
  - unfold unpack_list_n. destruct (fractional_size last) as [w|e] eqn:Ew.
    + destruct (unpack_loop f b None w (list_fuel None b) 0 0 []) as [[[l o]|e]|] eqn:E; intros H.
      * discriminate.
      * exfalso. injection H as ->. eapply loop_no_diverge; eauto.
      * intros fuel. rewrite (unpack_stuck f b w Hi Hb (list_fuel None b) 0 0 [] ltac:(unfold list_fuel; lia) E). reflexivity.
    + intros H. unfold fractional_size in Ew. destruct last as [x|]; [|discriminate]. destruct (0 <=? x); cbn in Ew; [discriminate|].
      injection Ew as <-. discriminate.
  - intros H. now rewrite H.
Qed.

(** ** Lists of integers *)
Lemma int_elem h signed e s z : struct_width e s -> int_fits signed (8 * width_in_bytes s) z ->
  exists bits, packs_as (int_marshal_pack h (8 * width_in_bytes s) signed e) (VInt z) bits
    /\ unpacks_from (int_marshal_unpack h (8 * width_in_bytes s) signed e) (VInt z) bits /\ zlen bits = 8 * width_in_bytes s.
Proof.
  intros W H. destruct (int_field_roundtrip h signed e s z W H) as (l & P & B & L & _ & U).
  exists (bits_of_bytes l). rewrite bits_of_bytes_length, L. split; [|split; [|auto]].
  - exists (BArr l). auto.
  - intros i b rest Hb. rewrite bits_of_bytes_length, L. exact (U b rest Hb).
Qed.
Lemma bit_elem h signed e w n : odd_width w -> 0 < w -> 0 <= n < 2 ^ w ->
  exists bits, packs_as (int_marshal_pack h w signed e) (VInt n) bits
    /\ unpacks_from (int_marshal_unpack h w signed e) (VInt n) bits /\ zlen bits = w.
Proof.
  intros O Hw Hn. destruct (bit_field_pack_nonneg h signed e w n O Hw Hn) as (b & P & K & V & E).
  exists (int_bits n w). rewrite zlen_int_bits by lia. split; [|split; [|auto]].
  - exists b. auto.
  - intros i v rest Hv. unfold int_marshal_unpack. rewrite (bit_field_roundtrip h signed e w n v rest) by (auto; lia).
    rewrite Z.mod_small, zlen_int_bits by lia. reflexivity.
Qed.

Lemma elems_list {A} (P : A -> Prop) (mk : A -> value) pack unpack w zs : 0 < w ->
  (forall z, P z -> exists bits, packs_as pack (mk z) bits /\ unpacks_from unpack (mk z) bits /\ zlen bits = w) ->
  Forall P zs ->
  exists bits, Forall2 (packs_as pack) (map mk zs) bits /\ Forall2 (unpacks_from unpack) (map mk zs) bits
    /\ Forall (fun x => 0 < zlen x) bits /\ zlen (concat_bits bits) = w * zlen zs.
Proof.
  intros Hw H F. induction F as [|z zs Hz _ IH].
  - exists []. cbn [map]. split; [constructor|]. split; [constructor|]. split; [constructor|]. cbn. lia.
  - destruct (H z Hz) as (b & B1 & B2 & B3). destruct IH as (bits & I1 & I2 & I3 & I4). exists (b :: bits).
    cbn [map]. split; [now constructor|]. split; [now constructor|]. split; [constructor; auto; lia|].
    cbn [concat_bits List.concat]. fold (concat_bits bits). rewrite zlen_app, zlen_cons, I4, B3. lia.
Qed.

Lemma int_list_roundtrip h signed e w zs :
  (exists s, w = 8 * width_in_bytes s /\ struct_width e s /\ Forall (int_fits signed w) zs)
  \/ (odd_width w /\ 0 < w /\ Forall (fun z => 0 <= z < 2 ^ w) zs) ->
  exists b bits, pack_list (int_marshal_pack h w signed e) (VList (map VInt zs)) = Ok b /\ view_with b bits
    /\ zlen bits = w * zlen zs
    /\ (forall v, view_with v bits ->
          unpack_list (int_marshal_unpack h w signed e) None None v = Ok (VList (map VInt zs), Some (w * zlen zs)))
    /\ (forall v rest, view_with v (bits ++ rest) ->
          unpack_list (int_marshal_unpack h w signed e) (Some (zlen zs)) None v = Ok (VList (map VInt zs), Some (w * zlen zs))).
Proof.
  intros H.
  assert (G : exists bits, Forall2 (packs_as (int_marshal_pack h w signed e)) (map VInt zs) bits
    /\ Forall2 (unpacks_from (int_marshal_unpack h w signed e)) (map VInt zs) bits
    /\ Forall (fun x => 0 < zlen x) bits /\ zlen (concat_bits bits) = w * zlen zs).
  { destruct H as [(s & -> & W & F)|(O & Hw & F)].
    - apply (elems_list (int_fits signed (8 * width_in_bytes s))); auto.
      + pose proof (width_pos s). lia.
      + intros z Hz. now apply int_elem.
    - apply (elems_list (fun z => 0 <= z < 2 ^ w)); auto. intros z Hz. now apply bit_elem. }
  destruct G as (bits & G1 & G2 & G3 & G4). destruct (pack_list_spec _ _ _ G1) as (b & B1 & B2).
  exists b, (concat_bits bits). split; [auto|]. split; [auto|]. split; [auto|]. rewrite <- G4. split.
  - intros v Hv. now apply (unpack_list_all _ _ _ _ bits).
  - intros v rest Hv. rewrite <- (zlen_map VInt zs). now apply (unpack_list_count _ _ _ _ bits rest).
Qed.

(** Lists of strings: the first string takes everything. *)
Lemma unpack_str_consumes p strip j size s v len : buf_ok s -> unpack_str p strip j size s = Ok (v, Some len) -> len = 8 * blen s.
Proof.
  intros K. unfold unpack_str. destruct (passert (strarg_len p =? 1)); cbn [rbind]; [|discriminate].
  destruct (int_size size) as [w|]; cbn [rbind]; [|discriminate].
  destruct (match w with Some n => if negb (n =? 0) && (blen s <? n / 8) then Err ValueError else Ok tt | None => Ok tt end); cbn [rbind]; [|discriminate].
  destruct (buf_slice s (Some 0) w); cbn [rbind]; [|discriminate]. destruct (to_bytes a1); cbn [rbind]; [|discriminate].
  destruct (match w with Some _ => _ | None => _ end); cbn [rbind]; [|discriminate].
  destruct (ascii_decode a3); cbn [rbind]; [|discriminate]. intros H. injection H as _ <-. reflexivity.
Qed.
Lemma str_list_one p strip j size n b v sz : buf_ok b -> is_view b ->
  unpack_list (fun _ s => unpack_str p strip j size s) n None b = Ok (v, sz) ->
  exists l, v = VList l /\ zlen l <= 1.
Proof.
  intros K V. unfold unpack_list, unpack_list_n. cbn [fractional_size].
  set (f := fun _ s => unpack_str p strip j size s).
  destruct (list_fuel n b) as [|fuel]; cbn [unpack_loop].
  - destruct ((0 <? blength b) && _); [discriminate|]. intros H. injection H as <- <-. exists []. split; [auto|]. rewrite zlen_nil. lia.
  - destruct ((0 <? blength b) && _) eqn:G.
    2:{ intros H. injection H as <- <-. exists []. split; [auto|]. rewrite zlen_nil. lia. }
    destruct (slice_whole b K V) as (s & S1 & S2 & S3 & S4). rewrite S1. cbn [rbind].
    destruct (f 0 s) as [[x [len|]]|e] eqn:Ef; try discriminate. pose proof (unpack_str_consumes _ _ _ _ _ _ _ S2 Ef) as El.
    assert (Hl : blength b <= 0 + len).
    { rewrite El, blen_cdiv. rewrite <- (buf_bits_len s), S4, buf_bits_len by auto. unfold cdiv8. lia. }
    destruct fuel; cbn [unpack_loop]; replace (0 + len <? blength b) with false by lia; cbn [andb];
      intros H; injection H as <- <-; exists [x]; split; auto; unfold zlen; cbn; lia.
Qed.

Lemma str_list_first p strip j bits n b v sz : buf_ok b -> is_view b -> unpack_list (str_type_unpack p strip j bits) n None b = Ok (v, sz) ->
  v = VList [] /\ (blength b <= 0 \/ exists k, n = Some k /\ k <= 0)
  \/ exists s x len, view_with s (buf_bits b) /\ unpack_str p strip j (Some bits) s = Ok (x, len) /\ v = VList [x].
Proof.
  intros K V. unfold unpack_list, unpack_list_n. cbn [fractional_size].
  assert (Z : (0 <? blength b) && match n with None => true | Some k => 0 <? k end = false -> blength b <= 0 \/ exists k, n = Some k /\ k <= 0).
  { intros H. destruct (0 <? blength b) eqn:B; [|left; lia]. right. destruct n as [k|]; [|discriminate]. exists k. cbn in H. split; [auto|lia]. }
  destruct (list_fuel n b) as [|fuel]; cbn [unpack_loop].
  - destruct ((0 <? blength b) && _) eqn:G; [discriminate|]. intros H. injection H as <- <-. left. auto.
  - destruct ((0 <? blength b) && _) eqn:G.
    2:{ intros H. injection H as <- <-. left. auto. }
    destruct (slice_whole b K V) as (s & S1 & S2 & S3 & S4). rewrite S1. cbn [rbind]. unfold str_type_unpack at 1.
    destruct (unpack_str p strip j (Some bits) s) as [[x [len|]]|e] eqn:Ef; try discriminate. pose proof (unpack_str_consumes _ _ _ _ _ _ _ S2 Ef) as El.
    assert (Hl : blength b <= 0 + len).
    { rewrite El, blen_cdiv. rewrite <- (buf_bits_len s), S4, buf_bits_len by auto. unfold cdiv8. lia. }
    destruct fuel; cbn [unpack_loop]; replace (0 + len <? blength b) with false by lia; cbn [andb];
      intros H; injection H as <- <-; right; exists s, x, (Some len); (split; [now repeat split|]); auto.
Qed.

(** Lists of bit fields read to the end of the view. *)
Lemma bit_list_loop h signed e w b : odd_width w -> 0 < w -> buf_ok b -> is_view b -> forall fuel k acc,
  blength b - w * Z.of_nat k <= w * Z.of_nat fuel ->
  let m := Z.to_nat ((blength b - w * Z.of_nat k + (w - 1)) / w) in
  unpack_loop (int_marshal_unpack h w signed e) b None None fuel (w * Z.of_nat k) (Z.of_nat k) acc
  = Some (Ok (acc ++ map (fun i => VInt (bits_value (cut w (buf_bits b) i))) (seq k m), w * Z.of_nat (k + m))).
Proof.
  intros O Hw K V fuel. induction fuel as [|fuel IH]; intros k acc Hf; cbv zeta; cbn [unpack_loop].
  - replace ((w * Z.of_nat k <? blength b) && true) with false by lia.
    replace (Z.to_nat ((blength b - w * Z.of_nat k + (w - 1)) / w)) with 0%nat.
    + cbn [seq map]. rewrite app_nil_r, Nat.add_0_r. reflexivity.
    + assert ((blength b - w * Z.of_nat k + (w - 1)) / w < 1) by (apply Z.div_lt_upper_bound; lia). lia.
  - destruct (Z_lt_ge_dec (w * Z.of_nat k) (blength b)) as [Hlt|Hge].
    + replace ((w * Z.of_nat k <? blength b) && true) with true by lia.
      destruct (slice_suffix b (w * Z.of_nat k) K V) as (s & S1 & S2 & S3 & S4); [nia|]. rewrite S1. cbn [rbind].
      unfold int_marshal_unpack at 1. rewrite bit_field_unpack by (auto; lia). rewrite S4.
      replace (Z.to_nat (w * Z.of_nat k)) with (k * Z.to_nat w)%nat by nia. fold (cut w (buf_bits b) k).
      replace (w * Z.of_nat k + w) with (w * Z.of_nat (S k)) by lia.
      replace (Z.of_nat k + 1) with (Z.of_nat (S k)) by lia. rewrite IH by lia. cbv zeta.
      set (m := Z.to_nat ((blength b - w * Z.of_nat (S k) + (w - 1)) / w)).
      assert (Em : Z.to_nat ((blength b - w * Z.of_nat k + (w - 1)) / w) = S m).
      { unfold m. replace (blength b - w * Z.of_nat k + (w - 1)) with (blength b - w * Z.of_nat (S k) + (w - 1) + 1 * w) by lia.
        rewrite Z.div_add by lia. assert (0 <= (blength b - w * Z.of_nat (S k) + (w - 1)) / w) by (apply Z.div_pos; lia). lia. }
      rewrite Em. cbn [seq map]. rewrite <- app_assoc. cbn [List.app]. do 4 f_equal. lia.
    + replace ((w * Z.of_nat k <? blength b) && true) with false by lia.
      replace (Z.to_nat ((blength b - w * Z.of_nat k + (w - 1)) / w)) with 0%nat.
      * cbn [seq map]. rewrite app_nil_r, Nat.add_0_r. reflexivity.
      * assert ((blength b - w * Z.of_nat k + (w - 1)) / w < 1) by (apply Z.div_lt_upper_bound; lia). lia.
Qed.
Lemma bit_list_to_end h signed e w b : odd_width w -> 0 < w -> buf_ok b -> is_view b ->
  let m := Z.to_nat ((blength b + (w - 1)) / w) in
  unpack_list (int_marshal_unpack h w signed e) None None b
  = Ok (VList (map (fun i => VInt (bits_value (cut w (buf_bits b) i))) (seq 0 m)), Some (w * Z.of_nat m)).
Proof.
  intros O Hw K V. pose proof (blength_nonneg b K). unfold unpack_list, unpack_list_n. cbn [fractional_size].
  pose proof (bit_list_loop h signed e w b O Hw K V (list_fuel None b) 0 []) as L. cbv zeta in L |- *.
  change (Z.of_nat 0) with 0 in L. rewrite Z.mul_0_r, Z.sub_0_r in L. rewrite L.
  - reflexivity.
  - unfold list_fuel. nia.
Qed.

Lemma int_of_bytes l r : bytes_ok l -> rmap_list int_of_value (map VInt l ++ r) = (let* x := rmap_list int_of_value r in Ok (l ++ x)).
Proof.
  intros B. induction B as [|n l H B IH]; cbn [map List.app rmap_list].
  - now destruct (rmap_list int_of_value r).
  - cbn [int_of_value]. replace (is_byteb n) with true by (unfold is_byteb, is_byte in *; lia). cbn [rbind]. rewrite IH. now destruct (rmap_list int_of_value r).
Qed.
Lemma pack_bytearray_list :
  (forall l, bytes_ok l -> pack_bytearray (VList (map VInt l)) = Ok (BArr l))
  /\ (forall l n r, bytes_ok l -> n < 0 \/ 255 < n -> pack_bytearray (VList (map VInt l ++ VInt n :: r)) = Err ValueError)
  /\ (forall l v r, bytes_ok l -> (forall n, v <> VInt n) -> pack_bytearray (VList (map VInt l ++ v :: r)) = Err TypeError).
Proof.
  split; [|split]; cbn [pack_bytearray].
  - intros l B. pose proof (int_of_bytes l [] B) as E. rewrite app_nil_r in E. rewrite E. cbn [rmap_list rbind]. now rewrite app_nil_r.
  - intros l n r B H. rewrite int_of_bytes by auto. cbn [rmap_list int_of_value].
    destruct (is_byteb n) eqn:E; [|reflexivity]. unfold is_byteb in E. lia.
  - intros l v r B H. rewrite int_of_bytes by auto. cbn [rmap_list]. destruct v; try reflexivity. exfalso. eapply H. reflexivity.
Qed.

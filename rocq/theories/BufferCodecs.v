(** Proofs: the fields built by the field builders restore the values they can store. *)
From Verif Require Import Base BaseProofs IntCodec CodecSpec Stream Marshal FieldSpec FieldFacts Range RangeRef RangeSpec RangeFacts RangeArith
  IoBuffer IoSpec IoProofs IoFacts IoOutput Serialize SerializeSpec SerializeFacts SerializeLists
  RefEngine RefSpec RefProofs RefStatic RefSteady BufferModel BufferSpec BufferPlace BufferFacts BufferPack BufferLayout BufferTrip BufferDep
  BufferMacros BufferCodecSpec.
From Coq Require Import ZArith List Bool String Lia ZifyBool ZifyNat.
Import ListNotations.
Open Scope list_scope.
Open Scope Z_scope.
Ltac Zify.zify_post_hook ::= Z.div_mod_to_equations.

Lemma pad_whole l : zlen l mod 8 = 0 -> pad_to_byte l = l.
Proof.
  intros H. unfold pad_to_byte. replace ((- zlen l) mod 8) with 0 by lia. now rewrite app_nil_r.
Qed.
Lemma pad_bytes l : pad_to_byte (bits_of_bytes l) = bits_of_bytes l.
Proof. apply pad_whole. rewrite bits_of_bytes_length. lia. Qed.
Lemma firstn_zlen {A} (l : list A) w : zlen l = w -> firstn (Z.to_nat w) l = l.
Proof. intros H. apply firstn_all2. unfold zlen in H. lia. Qed.
Lemma firstn_pad l w : zlen l = w -> firstn (Z.to_nat w) (pad_to_byte l) = l.
Proof. intros H. unfold pad_to_byte. apply firstn_app_exact. unfold zlen in H. lia. Qed.

(** A packer that produces bits [bits], and an unpacker that restores them. *)
Lemma restores_bits f pargs uargs psize w v b bits used : f_pack f pargs v psize = Ok b -> buf_ok b -> buf_bits b = bits -> zlen bits = w ->
  (forall a b', view_with b' bits -> f_unpack f uargs a b' (Some w) = Ok (v, used)) ->
  codec_restores f pargs uargs psize (Some w) w v b used /\ blen b = cdiv8 w.
Proof.
  intros P K E L U. split.
  - split; [exact P|]. split; [exact K|]. rewrite E, zlen_pad, L. split; [unfold cdiv8; lia|].
    intros a b' K' V' E'. apply U. split; [exact K'|]. split; [exact V'|]. rewrite E', <- L. now apply firstn_pad.
  - rewrite blen_cdiv, <- buf_bits_len, E, L by exact K. reflexivity.
Qed.
Lemma view_nil b bits : view_with b bits -> view_with b (bits ++ []).
Proof. now rewrite app_nil_r. Qed.

(** ** Text *)
Lemma str_open_unpack c strip j s b : is_byte c -> is_ascii s -> no_strip j (c :: strip) s -> view_with b (bits_of_bytes s) ->
  unpack_str (ABytes [c]) (ABytes strip) j (Some (8 * zlen s)) b = Ok (VStr s, Some (8 * zlen s)).
Proof.
  intros Hc Ha Hn Hv. pose proof (zlen_nonneg s). destruct (str_field_roundtrip j strip c (zlen s) s) as (r & _ & R2 & R3 & R4 & R5); auto; [lia|].
  assert (E : r = s).
  { destruct R4 as (x & y & E & _). rewrite E in R3. rewrite !zlen_app, !zlen_repeat in R3.
    assert (x = 0%nat) by lia. assert (y = 0%nat) by lia. subst x y. cbn in E. now rewrite app_nil_r in E. }
  subst r. rewrite (R5 b []) by now apply view_nil. f_equal. f_equal. destruct Hv as (K & _ & E). rewrite blen_cdiv, <- buf_bits_len, E by auto.
  rewrite bits_of_bytes_length. f_equal. unfold cdiv8. lia.
Qed.
Lemma json_no_strip s : json_text s -> no_strip JLeft [32; 0] s.
Proof.
  intros (_ & _ & r & c & -> & Hc & H0). split; [discriminate|]. intros _ x t E. apply app_inj_tail in E. destruct E as (_ & <-).
  intros [<-|[<-|[]]]; [apply Hc; cbn; tauto|congruence].
Qed.
Lemma space_white c : is_space c = true <-> In c white.
Proof. unfold is_space, white. cbn [In]. lia. Qed.
Lemma not_space c : is_space c = false <-> ~ In c white.
Proof. rewrite <- space_white. destruct (is_space c); intuition congruence. Qed.
Lemma json_strip s : json_text s -> strip_space s = s.
Proof.
  intros (_ & (c & r & E & Hc) & r' & c' & E' & Hc' & _). apply not_space in Hc, Hc'. unfold strip_space.
  assert (L : lstrip_space s = s) by (rewrite E; cbn [lstrip_space]; now rewrite Hc). rewrite L.
  rewrite E', rev_app_distr. cbn [rev app lstrip_space]. rewrite Hc'. cbn [rev]. now rewrite rev_involutive.
Qed.

(** ** Lists *)
Lemma stores_elem_bits t size w v : stores_elem t w v ->
  0 < w /\ exists bits, zlen bits = w /\ packs_as (elem_pack t size) v bits /\ unpacks_from (elem_unpack t size) v bits.
Proof.
  intros H. inversion H as [h s signed e z W F|h w0 signed e z Ow Hw F|nm C a bytes R Hb]; subst; cbn [elem_pack elem_unpack].
  - destruct (int_elem h signed e s z W F) as (bits & B1 & B2 & B3). split; [pose proof (width_pos s); lia|]. exists bits. auto.
  - destruct (bit_elem h signed e w z Ow Hw F) as (bits & B1 & B2 & B3). split; [lia|]. exists bits. auto.
  - split; [destruct bytes; [congruence|]; rewrite zlen_cons; pose proof (zlen_nonneg bytes); lia|]. exists (bits_of_bytes bytes).
    split; [apply bits_of_bytes_length|]. destruct R as ((R1 & R2) & R3). split.
    + exists (BArr bytes). cbn [pack_buffer]. rewrite R2. cbn [rbind]. auto.
    + intros i b rest Hv. rewrite (R3 b rest Hv). rewrite bits_of_bytes_length. reflexivity.
Qed.
Lemma stores_list t size l ws : Forall2 (stores_elem t) ws l ->
  exists bits, Forall2 (packs_as (elem_pack t size)) l bits /\ Forall2 (unpacks_from (elem_unpack t size)) l bits
    /\ Forall (fun x => 0 < zlen x) bits /\ zlen (concat_bits bits) = fold_right Z.add 0 ws.
Proof.
  induction 1 as [|w v ws l H _ (bits & I1 & I2 & I3 & I4)]; [exists []; repeat split; constructor|].
  destruct (stores_elem_bits t size w v H) as (Hw & b & B1 & B2 & B3). exists (b :: bits).
  split; [now constructor|]. split; [now constructor|]. split; [constructor; [lia|auto]|].
  unfold concat_bits in *. cbn [List.concat fold_right]. rewrite zlen_app, B1. lia.
Qed.

(** ** All kinds of fields *)
Ltac field_cbn := cbn [int_field float_field str_field bytearray_field json_field buffer_field list_field build f_pack f_unpack].
Lemma stores_packed f psize uargs w v used pargs : stores f psize uargs w v used ->
  exists b, codec_restores f pargs uargs psize (Some w) w v b (Some used) /\ blen b = cdiv8 w.
Proof.
  intros H.
  inversion H as [h e signed n k s uargs0 z W F|h e signed n k w0 uargs0 z Ow Hw F|h e n k uargs0 p R
    |c strip j k n uargs0 s Hn Hs Hc Ha Ns|c strip j k uargs0 s Hc Ha Ns|k psize0 uargs0 l Hl
    |dumps loads k n uargs0 s v0 J Hs D L|dumps loads k uargs0 s v0 J D L|nm C k psize0 uargs0 a bytes n R
    |t count k psize0 uargs0 l ws E U]; subst.
  - destruct (int_field_roundtrip h signed e s z W F) as (l & P & B & L & _ & U). exists (BArr l).
    apply (restores_bits _ _ _ _ _ _ _ (bits_of_bytes l)); [exact P|exact B|reflexivity|rewrite bits_of_bytes_length; lia|].
    intros a b' V'. field_cbn. apply (U b' []). now apply view_nil.
  - destruct (bit_field_pack_nonneg h signed e used z Ow Hw F) as (b & P & K & _ & B). exists b.
    apply (restores_bits _ _ _ _ _ _ _ (int_bits z used)); [exact P|exact K|exact B|apply zlen_int_bits; lia|].
    intros a b' V'. field_cbn. rewrite (bit_field_roundtrip h signed e used z b' []); [|auto|lia|now apply view_nil].
    now rewrite Z.mod_small by lia.
  - destruct (single_field_roundtrip h e p R) as (l & P & _ & B & L & U). exists (BArr l).
    apply (restores_bits _ _ _ _ _ _ _ (bits_of_bytes l)); [exact P|exact B|reflexivity|rewrite bits_of_bytes_length; lia|].
    intros a b' V'. field_cbn. apply (U b' []). now apply view_nil.
  - destruct (str_field_roundtrip j strip c n s Hn Hs Hc Ha Ns) as (r & P & B & L & _ & U). exists (BArr r).
    apply (restores_bits _ _ _ _ _ _ _ (bits_of_bytes r)); [exact P|exact B|reflexivity|rewrite bits_of_bytes_length; lia|].
    intros a b' V'. field_cbn. rewrite (U b' []) by now apply view_nil. f_equal. f_equal. destruct V' as (K & _ & E).
    rewrite blen_cdiv, <- buf_bits_len, E, bits_of_bytes_length by auto. unfold cdiv8. f_equal. lia.
  - exists (BArr s). apply (restores_bits _ _ _ _ _ _ _ (bits_of_bytes s)); [| |reflexivity|apply bits_of_bytes_length|].
    + field_cbn. unfold pack_str. change (strarg_len (ABytes [c])) with 1. cbn [passert Z.eqb rbind int_size]. cbn.
      now rewrite (proj1 (ascii_ok s Ha)).
    + now apply ascii_bytes.
    + intros a b' V'. field_cbn. now apply str_open_unpack.
  - exists (BArr l). apply (restores_bits _ _ _ _ _ _ _ (bits_of_bytes l)); [field_cbn; unfold pack_bytearray; now rewrite (proj2 (bytes_okb_spec l) Hl)|exact Hl|reflexivity|apply bits_of_bytes_length|].
    intros a b' V'. field_cbn. now apply unpack_bytearray_bytes.
  - pose proof (zlen_nonneg s). destruct (str_field_roundtrip JLeft [0] 32 n s ltac:(lia) Hs ltac:(unfold is_byte; lia) (proj1 J) (json_no_strip s J)) as (r & P & B & L' & _ & U).
    exists (BArr r). apply (restores_bits _ _ _ _ _ _ _ (bits_of_bytes r)); [|exact B|reflexivity|rewrite bits_of_bytes_length; lia|].
    + field_cbn. rewrite D. exact P.
    + intros a b' V'. field_cbn. rewrite (U b' []) by now apply view_nil. cbn [rbind fst snd]. rewrite (json_strip s J), L. cbn [rbind].
      f_equal. f_equal. destruct V' as (K & _ & E). rewrite blen_cdiv, <- buf_bits_len, E, bits_of_bytes_length by auto. unfold cdiv8. f_equal. lia.
  - exists (BArr s). apply (restores_bits _ _ _ _ _ _ _ (bits_of_bytes s)); [| |reflexivity|apply bits_of_bytes_length|].
    + field_cbn. rewrite D. cbn [rbind]. unfold pack_str. cbn. now rewrite (proj1 (ascii_ok s (proj1 J))).
    + apply ascii_bytes, J.
    + intros a b' V'. field_cbn. rewrite str_open_unpack; [|unfold is_byte; lia|apply J|now apply json_no_strip|exact V'].
      cbn [rbind fst snd]. now rewrite (json_strip s J), L.
  - destruct R as ((R1 & R2) & R3). exists (BArr bytes).
    apply (restores_bits _ _ _ _ _ _ _ (bits_of_bytes bytes)); [|exact R1|reflexivity|apply bits_of_bytes_length|].
    + field_cbn. cbn [pack_buffer]. now rewrite R2.
    + intros a0 b' V'. field_cbn. now apply R3.
  - destruct (stores_list t psize l ws E) as (bits & B1 & _). destruct (stores_list t (Some (fold_right Z.add 0 ws)) l ws E) as (bits' & B1' & B2 & B3 & B4).
    assert (Hp : forall sz, Forall2 (packs_as (elem_pack t sz)) l bits').
    { intros sz. revert B1'. generalize (Some (fold_right Z.add 0 ws)). intros sz0 B1'. clear - E B1'. revert ws E. induction B1' as [|v x l xs Hx F IH]; intros ws E; [constructor|].
      inversion E as [|w0 ? ws0 ? Hw E']; subst. constructor; [|eapply IH; eauto].
      inversion Hw; subst; exact Hx. }
    destruct (pack_list_spec _ _ _ (Hp psize)) as (b & P & K & _ & Eb). exists b.
    apply (restores_bits _ _ _ _ _ _ _ (concat_bits bits')); [exact P|exact K|exact Eb|exact B4|].
    intros a b' V'. cbn [list_field f_unpack build].
    assert (Hl : blength b' <= fold_right Z.add 0 ws).
    { destruct V' as (K' & _ & E'). rewrite <- buf_bits_len, E', B4 by exact K'. lia. }
    destruct U as [E1|E1]; rewrite E1; cbn [count_of rbind]; rewrite <- B4.
    + apply (unpack_list_all _ b' _ l bits' V'); rewrite ?B4; auto.
    + apply (unpack_list_count _ b' _ l bits' []); [now apply view_nil| | |]; rewrite ?B4; auto.
Qed.

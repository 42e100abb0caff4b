(** Property C91: string fields with an encoding, and values that are no strings. *)
From Verif Require Import Base BaseProofs IntCodec CodecSpec Stream Marshal FieldSpec Range RangeSpec IoBuffer IoSpec IoProofs Serialize SerializeSpec SerializeLists
  RefEngine BufferModel BufferSpec BufferTrip BufferDep BufferMacros BufferCodecSpec BufferCodecs BufferExamples StrCodec StrCodecSpec StrCodecFacts.
From Coq Require Import ZArith List Bool String Lia ZifyBool ZifyNat.
Import ListNotations.
Open Scope string_scope.
Open Scope list_scope.
Open Scope Z_scope.
Ltac Zify.zify_post_hook ::= Z.div_mod_to_equations.

(** ** C91.  Without a size the bytes packed are those of the characters in the encoding; a text with a character
    that the encoding does not have raises a UnicodeError, with or without a size. *)
Theorem C91_packs : forall e j c s,
  (forall l, text_is e s l -> pack_text e (ABytes [c]) j None (VStr s) = Ok (BArr l))
  /\ (Forall (has_char e) s -> exists l, text_is e s l)
  /\ (~ Forall (has_char e) s -> forall size, size = None \/ (exists n, 0 <= n /\ size = Some (8 * n)) ->
        pack_text e (ABytes [c]) j size (VStr s) = Err UnicodeError).
Proof.
  intros e j c s. split; [|split].
  - intros l H. now apply (pack_text_unsized e j c (VStr s) s).
  - intros H. destruct (encode_total e s H) as (l & E). exists l. now apply encode_spec.
  - intros H size Hz. now apply (pack_text_fails e j c size (VStr s) s).
Qed.
Print Assumptions C91_packs.

(** The encoding determines the bytes, and the bytes the text. *)
Theorem C91_unambiguous : forall e s s' l l', text_is e s l -> text_is e s' l' -> (l = l' <-> s = s').
Proof.
  intros e s s' l l' H H'. split; intros <-.
  - apply decode_text in H, H'. congruence.
  - apply encode_spec in H, H'. congruence.
Qed.
Print Assumptions C91_unambiguous.

(** Unpacking a field of [n] bytes: what remains when strip and padding are removed must be the bytes of some text;
    that text is the value.  Everything else (overlong UTF-8, surrogates, half characters) raises a UnicodeError. *)
Theorem C91_unpacks : forall e j strip c n b core, 0 <= n <= blen b -> buf_ok b -> is_view b ->
  field_text j strip c (firstn (Z.to_nat n) (bytes_of_bits (buf_bits b))) core ->
  (forall s, text_is e s core -> unpack_text e (ABytes [c]) (ABytes strip) j (Some (8 * n)) b = Ok (VStr s, Some (8 * blen b)))
  /\ ((forall s, ~ text_is e s core) -> unpack_text e (ABytes [c]) (ABytes strip) j (Some (8 * n)) b = Err UnicodeError).
Proof.
  intros e j strip c n b core Hn K V T. rewrite (unpack_text_sized e j strip c n b core Hn K V T). split.
  - intros s H. now rewrite (decode_text e s core H).
  - intros H. rewrite decode_fails; [reflexivity| |exact H].
    destruct T as (mid & (l1 & r1 & E1 & _) & (l2 & r2 & E2 & _)). destruct (bytes_of_bits_spec (buf_bits b)) as (B & _).
    apply (bytes_ok_firstn (Z.to_nat n)) in B. rewrite E1 in B. apply bytes_ok_app in B. destruct B as (_ & B). apply bytes_ok_app in B. destruct B as (B & _).
    rewrite E2 in B. apply bytes_ok_app in B. destruct B as (_ & B). now apply bytes_ok_app in B.
Qed.
Print Assumptions C91_unpacks.

(** A text whose bytes fit and do not begin or end with bytes that are stripped is restored. *)
Theorem C91_roundtrip : forall e j strip c n s l, 0 <= n -> zlen l <= n -> is_byte c -> text_is e s l -> no_strip j (c :: strip) l ->
  exists r, pack_text e (ABytes [c]) j (Some (8 * n)) (VStr s) = Ok (BArr r) /\ bytes_ok r /\ zlen r = n /\ padded j c n l r
    /\ forall b rest, view_with b (bits_of_bytes r ++ rest) ->
         unpack_text e (ABytes [c]) (ABytes strip) j (Some (8 * n)) b = Ok (VStr s, Some (8 * blen b)).
Proof. exact text_roundtrip. Qed.
Print Assumptions C91_roundtrip.

(** With UTF-8 and ASCII padding it is enough that the text does not begin or end with such characters: stripping
    never cuts a character. *)
Theorem C91_utf8_roundtrip : forall j strip c n s l, 0 <= n -> zlen l <= n -> 0 <= c < 128 -> Forall (fun x => x < 128) strip ->
  text_is Utf8 s l -> no_strip j (c :: strip) s ->
  exists r, pack_text Utf8 (ABytes [c]) j (Some (8 * n)) (VStr s) = Ok (BArr r) /\ bytes_ok r /\ zlen r = n /\ padded j c n l r
    /\ forall b rest, view_with b (bits_of_bytes r ++ rest) ->
         unpack_text Utf8 (ABytes [c]) (ABytes strip) j (Some (8 * n)) b = Ok (VStr s, Some (8 * blen b)).
Proof. exact utf8_roundtrip. Qed.
Print Assumptions C91_utf8_roundtrip.

(** Not so with UTF-16: with the default padding and strip, a text that fills its field and ends with a character
    below 256 (but a space or NUL) is packed, and unpacking raises a UnicodeError. *)
Theorem C91_utf16_roundtrip_refuted : forall t lt ch, text_is Utf16LE t lt -> 0 < ch < 256 -> ch <> 32 ->
  let l := lt ++ [ch; 0] in
  text_is Utf16LE (t ++ [ch]) l
  /\ pack_text Utf16LE (ABytes [32]) JLeft (Some (8 * zlen l)) (VStr (t ++ [ch])) = Ok (BArr l)
  /\ forall b rest, view_with b (bits_of_bytes l ++ rest) ->
       unpack_text Utf16LE (ABytes [32]) (ABytes [0]) JLeft (Some (8 * zlen l)) b = Err UnicodeError.
Proof. exact utf16_full. Qed.
Print Assumptions C91_utf16_roundtrip_refuted.

(** ASCII is the case of property C43. *)
Theorem C91_ascii : forall padding strip j size, (forall s, pack_text Ascii padding j size (VStr s) = pack_str padding j size (VStr s))
  /\ forall b, unpack_text Ascii padding strip j size b = unpack_str padding strip j size b.
Proof. intros. split; [intros s; apply ascii_pack|intros b; apply ascii_unpack]. Qed.
Print Assumptions C91_ascii.

(** A field of a Buffer class stores every such text: the condition under which the theorems about layouts (C48,
    C50, C89) hold for it. *)
Theorem C91_field : forall e strip c j k n s l, 0 <= n -> zlen l <= n -> is_byte c -> text_is e s l -> no_strip j (c :: strip) l ->
  exists b, codec_restores (text_field e (ABytes [c]) (ABytes strip) j k) [] [] (Some (8 * n)) (Some (8 * n)) (8 * n) (VStr s) b (Some (8 * n)).
Proof.
  intros e strip c j k n s l Hn Hl Hc Ht Hs. destruct (text_roundtrip e j strip c n s l Hn Hl Hc Ht Hs) as (r & P & B & L & _ & U). exists (BArr r).
  apply (proj1 (restores_bits (text_field e (ABytes [c]) (ABytes strip) j k) [] [] (Some (8 * n)) (8 * n) (VStr s) (BArr r) (bits_of_bytes r) (Some (8 * n)) P B eq_refl ltac:(rewrite bits_of_bytes_length; lia)
    ltac:(intros a b' V'; cbn [text_field build f_unpack]; rewrite (U b' []) by (now apply view_nil); do 2 f_equal; destruct V' as (K & _ & E);
      rewrite blen_cdiv, <- buf_bits_len, E, bits_of_bytes_length by auto; unfold cdiv8; f_equal; lia))).
Qed.
Print Assumptions C91_field.

(** What is assigned need not be a string: None is packed as "None", an int as its decimal digits, and a bytes object
    not as its bytes but as the text that repr() shows; unpacking finds that text. *)
Theorem C91_other_values : forall j c n,
  pack_text Ascii (ABytes [c]) j None VNone = Ok (BArr [78; 111; 110; 101])
  /\ (exists t, shows_int n t /\ pack_text Ascii (ABytes [c]) j None (VInt n) = Ok (BArr t))
  /\ forall l, bytes_ok l -> exists q mid, (q = 39 \/ q = 34) /\ zlen l <= zlen mid /\ (Forall plain_byte l -> q = 39 /\ mid = l)
       /\ pack_text Ascii (ABytes [c]) j None (VBytes l) = Ok (BArr ([98; q] ++ mid ++ [q])).
Proof.
  intros j c n. split; [reflexivity|]. split.
  - exists (decimal n). split; [apply decimal_shows|]. apply (pack_text_unsized Ascii j c (VInt n) (decimal n)); [reflexivity|]. apply ascii_text, (shows_ascii n), decimal_shows.
  - intros l B. destruct (repr_shape l) as (q & mid & Q & E & L & P). exists q, mid. split; [exact Q|]. split; [exact L|]. split; [exact P|].
    rewrite <- E. apply (pack_text_unsized Ascii j c (VBytes l) (repr_bytes l)); [reflexivity|]. now apply ascii_text, repr_ascii.
Qed.
Print Assumptions C91_other_values.
(** Which text that is. *)
Theorem C91_bytes_shown : forall j c l, bytes_ok l -> exists q ts, quote_for l q /\ Forall2 (shows_byte q) l ts
  /\ pack_text Ascii (ABytes [c]) j None (VBytes l) = Ok (BArr ([98; q] ++ List.concat ts ++ [q])).
Proof.
  intros j c l B. destruct (repr_bytes_shows l B) as (q & ts & Q & F & E). exists q, ts. split; [exact Q|]. split; [exact F|].
  rewrite <- E. apply (pack_text_unsized Ascii j c (VBytes l) (repr_bytes l)); [reflexivity|]. now apply ascii_text, repr_ascii.
Qed.
Print Assumptions C91_bytes_shown.
(** Different numbers and different bytes are packed differently. *)
Theorem C91_other_values_distinct : forall j c, (forall n n' b, pack_text Ascii (ABytes [c]) j None (VInt n) = Ok b -> pack_text Ascii (ABytes [c]) j None (VInt n') = Ok b -> n = n')
  /\ forall l l' b, bytes_ok l -> bytes_ok l' -> pack_text Ascii (ABytes [c]) j None (VBytes l) = Ok b -> pack_text Ascii (ABytes [c]) j None (VBytes l') = Ok b -> l = l'.
Proof.
  intros j c. split.
  - intros n n' b H H'. assert (P : forall n, pack_text Ascii (ABytes [c]) j None (VInt n) = Ok (BArr (decimal n))).
    { intros k. apply (pack_text_unsized Ascii j c (VInt k) (decimal k)); [reflexivity|]. apply ascii_text, (shows_ascii k), decimal_shows. }
    rewrite P in H, H'. apply (shows_inj n n' (decimal n)); [apply decimal_shows|]. replace (decimal n) with (decimal n') by congruence. apply decimal_shows.
  - intros l l' b B B' H H'. assert (P : forall l, bytes_ok l -> pack_text Ascii (ABytes [c]) j None (VBytes l) = Ok (BArr (repr_bytes l))).
    { intros k K. apply (pack_text_unsized Ascii j c (VBytes k) (repr_bytes k)); [reflexivity|]. now apply ascii_text, repr_ascii. }
    rewrite P in H, H' by assumption. apply repr_inj; [exact B|exact B'|congruence].
Qed.
Print Assumptions C91_other_values_distinct.
(** So nothing but a string comes back as it was. *)
Theorem C91_unpacks_strings_only : forall e padding strip j size b v used, unpack_text e padding strip j size b = Ok (v, used) -> exists s, v = VStr s.
Proof.
  intros e padding strip j size b v used H. unfold unpack_text in H. destruct (passert _); cbn [rbind] in H; [|discriminate].
  destruct (int_size size) as [z|]; cbn [rbind] in H; [|discriminate]. destruct (match z with Some _ => _ | None => Ok tt end); cbn [rbind] in H; [|discriminate].
  destruct (buf_slice b (Some 0) z); cbn [rbind] in H; [|discriminate]. destruct (to_bytes _); cbn [rbind] in H; [|discriminate].
  destruct (match z with Some _ => _ | None => Ok _ end); cbn [rbind] in H; [|discriminate]. destruct (decode e _); cbn [rbind] in H; [|discriminate].
  injection H as <- _. eauto.
Qed.
Print Assumptions C91_unpacks_strings_only.

(** ** Cases *)
(** The Euro sign, a letter, a character beyond 65536. *)
Example C91_nonvacuous :
  pack_text Utf8 (ABytes [32]) JLeft (Some 80) (VStr [8364; 97; 128512]) = Ok (BArr [226; 130; 172; 97; 240; 159; 152; 128; 32; 32])
  /\ unpack_text Utf8 (ABytes [32]) (ABytes [0]) JLeft (Some 80) (BView (BArr [226; 130; 172; 97; 240; 159; 152; 128; 32; 32]) 0 80) = Ok (VStr [8364; 97; 128512], Some 80)
  /\ unpack_text Utf8 (ABytes [32]) (ABytes [0]) JLeft (Some 16) (BView (BArr [192; 128]) 0 16) = Err UnicodeError
  /\ unpack_text Utf8 (ABytes [32]) (ABytes [0]) JLeft (Some 24) (BView (BArr [237; 160; 128]) 0 24) = Err UnicodeError
  /\ pack_text Utf16LE (ABytes [32]) JLeft (Some 48) (VStr [128512; 97]) = Ok (BArr [61; 216; 0; 222; 97; 0])
  /\ pack_text Utf16BE (ABytes [32]) JLeft None (VStr [8364]) = Ok (BArr [32; 172])
  /\ pack_text Latin1 (ABytes [32]) JRight (Some 16) (VStr [233]) = Ok (BArr [32; 233])
  /\ pack_text Ascii (ABytes [32]) JLeft (Some 40) (VInt (-120)) = Ok (BArr [45; 49; 50; 48; 32])
  /\ pack_text Ascii (ABytes [32]) JLeft None (VBytes [104; 39; 10; 200]) = Ok (BArr [98; 34; 104; 39; 92; 110; 92; 120; 99; 56; 34])
  /\ pack_text Utf8 (ABytes [32]) JLeft None (VStr [55296]) = Err UnicodeError.
Proof. repeat (split; [vm_compute; reflexivity|]). vm_compute; reflexivity. Qed.
(** The hypotheses of the theorems. *)
Example C91_nonvacuous_text : text_is Utf8 [8364; 97] [226; 130; 172; 97] /\ no_strip JCenter (32 :: [0]) [8364; 97] /\ no_strip JCenter (32 :: [0]) [226; 130; 172; 97]
  /\ text_is Utf16LE [128512] [61; 216; 0; 222] /\ (forall s, ~ text_is Utf8 s [192; 128]) /\ ~ Forall (has_char Latin1) [8364].
Proof.
  assert (N : forall x y : list Z, (exists a t, x = a :: t /\ ~ In a [32; 0]) -> (exists a t, x = t ++ [a] /\ ~ In a [32; 0]) -> no_strip JCenter (32 :: [0]) x).
  { intros x _ (a & t & -> & Ha) (z & u & E & Hz). split; intros _ q v Eq.
    - injection Eq as <- _. exact Ha.
    - rewrite E in Eq. apply app_inj_tail in Eq as (_ & <-). exact Hz. }
  split; [apply encode_spec; reflexivity|]. split; [apply (N _ []); [exists 8364, [97]|exists 97, [8364]]; (split; [reflexivity|cbn; lia])|].
  split; [apply (N _ []); [exists 226, [130; 172; 97]|exists 97, [226; 130; 172]]; (split; [reflexivity|cbn; lia])|]. split; [apply encode_spec; reflexivity|]. split.
  - intros s H. apply decode_text in H. discriminate.
  - intros H. inversion H as [|? ? Hc _]. unfold has_char in Hc. lia.
Qed.

(** class Name(Buffer):
        name = str_field(where=bytes_ref[0:16], encoding=...)
    Every object whose name fits is restored. *)
Definition name_field (e : codec) : field := text_field e (ABytes [32]) (ABytes [0]) JLeft (packet_kw "name" 1 1 None).
Definition name_users : list uref := [UConst (rbool true); UByteSlice (num 0) (num 16)].
Definition name_class (e : codec) : cls := mkCls [name_field e] name_users (Some 128).
Definition name_layout (b : buf) (s : list Z) : layout := [Some (mkEntry (at_bytes 0 16) (at_bytes 0 16) (at_bytes 0 16) (VStr s) b (Some 128))].
Example C91_nonvacuous_class : forall e s l o, text_is e s l -> zlen l <= 16 -> no_strip JLeft [32; 0] l -> Marshal.lookup o "name" = Some (VStr s) ->
  make_class [name_field e] name_users = Ok (name_class e)
  /\ exists bytes o', buffer_pack (name_class e) o = (Ok bytes, o') /\ zlen bytes = 16
     /\ forall rest o2, bytes_ok rest -> exists o'', buffer_unpack (name_class e) (BArr (bytes ++ rest)) o2 = (Ok 128, o'') /\ Marshal.lookup o'' "name" = Some (VStr s).
Proof.
  intros e s l o Ht Hl Hn Ho. split; [apply make_class_by; destruct e; vm_compute; reflexivity|].
  destruct (C91_field e [0] 32 JLeft (packet_kw "name" 1 1 None) 16 s l ltac:(lia) Hl ltac:(unfold is_byte; lia) Ht Hn) as (b & B).
  assert (K : class_layout (name_class e) (name_layout b s) o).
  { split; [reflexivity|]. exists (fun _ => 0%nat), (fun _ => 0%nat), (fun _ => 0%nat). intros [|i] f Hf; [|destruct i; discriminate]. injection Hf as <-.
    cbn [name_layout nth_error]. unfold laid_out. cbn [e_write e_read e_place e_value e_buf e_used].
    assert (T : forall know, exists c, given (name_class e) know (user 0) c /\ truthy c = true).
    { intros know. exists (rbool true). split; [now apply given_const|reflexivity]. }
    assert (P : forall know, given (name_class e) know (user 1) (RRanges (at_bytes 0 16))) by (intros know; eapply given_slice; reflexivity).
    split; [apply P|]. split; [now left|]. split; [congruence|]. split; [apply P|]. split; [apply T|]. split; [apply T|]. split; [exact Ho|].
    split; [reflexivity|]. split; [constructor|]. exists [], []. split; [constructor|]. split; [constructor|]. exact B. }
  assert (Pl : places (name_layout b s) = byte_places [(0, 16)]) by reflexivity.
  destruct (layout_roundtrip (name_class e) (name_layout b s) o 128) as (bytes & o' & P1 & P2 & (m & P3 & P4) & _ & _ & P6).
  - class_ok.
  - exact K.
  - rewrite Pl. apply byte_places_apart; repeat first [apply Forall_nil|apply FOP_nil|apply FOP_cons|apply Forall_cons]; cbn [fst snd]; lia.
  - unfold layout_size. cbn [k_size name_class]. split; [reflexivity|]. split; [lia|]. rewrite Pl. intros r y Hr Hy. apply byte_places_in in Hr.
    destruct Hr as (p & [<-|[]] & ->). injection Hy as <-. cbn. lia.
  - repeat constructor; cbn; intuition discriminate.
  - assert (m = 128). { apply (largest_stop_unique _ _ _ P3). rewrite Pl. change 128 with (8 * 16). apply byte_places_largest; [|eexists; now left|lia]. intros p [<-|[]]. cbn. lia. }
    subst m. exists bytes, o'. split; [exact P1|]. split; [rewrite P4; reflexivity|]. intros rest o2 Hr.
    destruct (P6 (BArr (bytes ++ rest)) (bits_of_bytes rest) o2) as (o'' & U1 & U2 & _).
    + apply Forall_app. auto.
    + cbn [buf_bits]. apply flat_map_app.
    + intros [|i] x Hx; [|destruct i; discriminate]. injection Hx as <-. now left.
    + exists o''. split; [exact U1|]. now inversion U2.
Qed.

(** b"it's\xfa\n" *)
Example C91_bytes_shown_case : pack_text Ascii (ABytes [32]) JLeft None (VBytes [105; 116; 39; 115; 250; 10])
  = Ok (BArr [98; 34; 105; 116; 39; 115; 92; 120; 102; 97; 92; 110; 34]).
Proof. reflexivity. Qed.

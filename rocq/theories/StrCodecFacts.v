(** Text encodings: encoding and decoding are inverse, and strict. *)
From Verif Require Import Base BaseProofs IntCodec CodecSpec Stream Marshal FieldSpec FieldFacts
  Range IoBuffer IoSpec IoProofs IoMutProofs IoInsert IoFacts IoOutput IoViews Serialize SerializeSpec SerializeFacts SerializeLists
  BufferModel BufferMacros StrCodec StrCodecSpec.
From Coq Require Import ZArith List Bool Lia ZifyBool ZifyNat.
Import ListNotations.
Open Scope Z_scope.
Ltac Zify.zify_post_hook ::= Z.div_mod_to_equations.

(** ** Characters *)
Lemma scalarb_spec c : scalarb c = true <-> scalar c.
Proof. unfold scalarb, scalar. lia. Qed.
Lemma utf8_char_is c : scalar c -> utf8_is c (utf8_char c).
Proof.
  intros H. unfold utf8_char. unfold scalar in H. destruct (c <? 128) eqn:E1; [constructor; lia|].
  destruct (c <? 2048) eqn:E2.
  { replace c with (64 * (c / 64) + c mod 64) at 1 by lia. constructor; lia. }
  destruct (c <? 65536) eqn:E3.
  { assert (X : c = 4096 * (c / 4096) + 64 * (c / 64 mod 64) + c mod 64) by lia. rewrite X at 1.
    constructor; try rewrite <- X; unfold scalar; lia. }
  assert (X : c = 262144 * (c / 262144) + 4096 * (c / 4096 mod 64) + 64 * (c / 64 mod 64) + c mod 64) by lia.
  rewrite X at 1. constructor; try rewrite <- X; lia.
Qed.
Lemma utf8_scalar c l : utf8_is c l -> scalar c.
Proof. intros H. destruct H; unfold scalar in *; lia. Qed.
Lemma utf8_char_unique c l : utf8_is c l -> l = utf8_char c.
Proof.
  intros H. destruct H; unfold utf8_char; unfold scalar in *.
  - now replace (c <? 128) with true by lia.
  - replace (64 * a + b <? 128) with false by lia. replace (64 * a + b <? 2048) with true by lia. repeat f_equal; lia.
  - set (x := 4096 * a + 64 * b + c) in *. replace (x <? 128) with false by lia. replace (x <? 2048) with false by lia. replace (x <? 65536) with true by lia.
    unfold x. repeat f_equal; lia.
  - set (x := 262144 * a + 4096 * b + 64 * c + d) in *. replace (x <? 128) with false by lia. replace (x <? 2048) with false by lia. replace (x <? 65536) with false by lia.
    unfold x. repeat f_equal; lia.
Qed.
Lemma unit_bytes_is big u : 0 <= u < 65536 -> unit_is big u (unit_bytes big u).
Proof. intros H. exists (u / 256), (u mod 256). unfold is_byte. split; [lia|]. split; [lia|]. split; [lia|]. destruct big; reflexivity. Qed.
Lemma unit_bytes_unique big u l : unit_is big u l -> l = unit_bytes big u.
Proof. intros (h & t & H1 & H2 & -> & ->). unfold is_byte in *. unfold unit_bytes. destruct big; repeat f_equal; lia. Qed.
Lemma utf16_char_is big c : scalar c -> utf16_is big c (utf16_char big c).
Proof.
  intros H. unfold utf16_char. destruct (c <? 65536) eqn:E.
  - apply utf16_1; [exact H|lia|]. apply unit_bytes_is. unfold scalar in H. lia.
  - unfold scalar in H. assert (X : c = 65536 + 1024 * ((c - 65536) / 1024) + (c - 65536) mod 1024) by lia. rewrite X at 1.
    apply utf16_2; try apply unit_bytes_is; lia.
Qed.
Lemma utf16_scalar big c l : utf16_is big c l -> scalar c.
Proof. intros H. destruct H; unfold scalar in *; lia. Qed.
Lemma utf16_char_unique big c l : utf16_is big c l -> l = utf16_char big c.
Proof.
  intros H. destruct H as [c l Hs Hc U|h t l1 l2 Hh Ht U1 U2]; unfold utf16_char.
  - replace (c <? 65536) with true by lia. now apply unit_bytes_unique.
  - replace (65536 + 1024 * h + t <? 65536) with false by lia.
    rewrite (unit_bytes_unique _ _ _ U1), (unit_bytes_unique _ _ _ U2). f_equal; f_equal; lia.
Qed.
Lemma encode_char_spec e c l : encode_char e c = Ok l <-> char_is e c l.
Proof.
  destruct e; cbn [encode_char char_is].
  - destruct ((0 <=? c) && (c <? 128)) eqn:E; split; intros H.
    + injection H as <-. split; [lia|reflexivity]. + now destruct H as (_ & ->). + discriminate. + lia.
  - destruct ((0 <=? c) && (c <? 256)) eqn:E; split; intros H.
    + injection H as <-. split; [lia|reflexivity]. + now destruct H as (_ & ->). + discriminate. + lia.
  - destruct (scalarb c) eqn:E; split; intros H.
    + injection H as <-. apply utf8_char_is. now apply scalarb_spec. + f_equal. symmetry. now apply utf8_char_unique. + discriminate.
    + apply utf8_scalar, scalarb_spec in H. congruence.
  - destruct (scalarb c) eqn:E; split; intros H.
    + injection H as <-. apply utf16_char_is. now apply scalarb_spec. + f_equal. symmetry. now apply utf16_char_unique. + discriminate.
    + apply utf16_scalar, scalarb_spec in H. congruence.
  - destruct (scalarb c) eqn:E; split; intros H.
    + injection H as <-. apply utf16_char_is. now apply scalarb_spec. + f_equal. symmetry. now apply utf16_char_unique. + discriminate.
    + apply utf16_scalar, scalarb_spec in H. congruence.
Qed.
Lemma encode_char_cases e c : (exists l, encode_char e c = Ok l /\ has_char e c) \/ (encode_char e c = Err UnicodeError /\ ~ has_char e c).
Proof.
  destruct e; cbn [encode_char has_char];
    match goal with |- context [if ?b then _ else _] => destruct b eqn:E end; try (left; eexists; split; [reflexivity|]); try (right; split; [reflexivity|]);
    try lia; try (now apply scalarb_spec); intros H; apply scalarb_spec in H; congruence.
Qed.

(** ** Texts *)
Lemma encode_spec e s : forall l, encode e s = Ok l <-> text_is e s l.
Proof.
  induction s as [|c s IH]; intros l; cbn [encode].
  - split; [intros [= <-]; constructor|]. intros H. inversion H. reflexivity.
  - split.
    + intros H. destruct (encode_char e c) as [x|] eqn:X; cbn [rbind] in H; [|discriminate]. destruct (encode e s) as [y|] eqn:Y; cbn [rbind] in H; [|discriminate].
      injection H as <-. constructor; [now apply encode_char_spec|now apply IH].
    + intros H. inversion H as [|c' s' x y X Y]. subst. apply encode_char_spec in X. rewrite X. cbn [rbind]. apply IH in Y. rewrite Y. reflexivity.
Qed.
Lemma encode_total e s : Forall (has_char e) s -> exists l, encode e s = Ok l.
Proof.
  induction 1 as [|c s H Hs (y & Y)]; [now exists []|]. cbn [encode].
  destruct (encode_char_cases e c) as [(x & X & _)|(_ & N)]; [|contradiction]. rewrite X. cbn [rbind]. rewrite Y. cbn [rbind]. eauto.
Qed.
Lemma encode_fails e s : ~ Forall (has_char e) s -> encode e s = Err UnicodeError.
Proof.
  induction s as [|c s IH]; intros H; [destruct H; constructor|]. cbn [encode].
  destruct (encode_char_cases e c) as [(x & X & K)|(X & _)]; rewrite X; cbn [rbind]; [|reflexivity].
  rewrite IH; [reflexivity|]. intros F. apply H. now constructor.
Qed.

(** ** Decoding *)
Lemma utf8_step c l r : utf8_is c l -> utf8_decode (l ++ r) = put c (utf8_decode r).
Proof.
  intros H. destruct H; unfold scalar in *; cbn [app utf8_decode].
  - now replace (c <? 128) with true by lia.
  - replace (192 + a <? 128) with false by lia. replace (192 + a <? 194) with false by lia. unfold tail_byte. replace (negb _) with false by lia.
    replace (192 + a <? 224) with true by lia. f_equal. lia.
  - replace (224 + a <? 128) with false by lia. replace (224 + a <? 194) with false by lia. unfold tail_byte.
    replace (negb ((128 <=? 128 + b) && (128 + b <? 192))) with false by lia. replace (224 + a <? 224) with false by lia.
    replace (negb ((128 <=? 128 + c) && (128 + c <? 192))) with false by lia. replace (224 + a <? 240) with true by lia.
    replace (((224 + a =? 224) && (128 + b <? 160)) || ((224 + a =? 237) && (160 <=? 128 + b))) with false by lia. f_equal. lia.
  - replace (240 + a <? 128) with false by lia. replace (240 + a <? 194) with false by lia. unfold tail_byte.
    replace (negb ((128 <=? 128 + b) && (128 + b <? 192))) with false by lia. replace (240 + a <? 224) with false by lia.
    replace (negb ((128 <=? 128 + c) && (128 + c <? 192))) with false by lia. replace (240 + a <? 240) with false by lia.
    replace (negb ((128 <=? 128 + d) && (128 + d <? 192)) || (245 <=? 240 + a) || ((240 + a =? 240) && (128 + b <? 144)) || ((240 + a =? 244) && (144 <=? 128 + b))) with false by lia.
    f_equal. lia.
Qed.
Lemma put_inv c r s : put c r = Ok s -> exists t, r = Ok t /\ s = c :: t.
Proof. unfold put. destruct r as [t|]; cbn [rbind]; [|discriminate]. intros [= <-]. eauto. Qed.
Lemma put_err c r e : put c r = Err e -> r = Err e.
Proof. unfold put. destruct r as [t|]; cbn [rbind]; [discriminate|]. now intros [= ->]. Qed.

(** What is decoded: either an encoding of the result, or nothing. *)
Definition decoded (e : codec) (l : list Z) (x : res (list Z)) : Prop :=
  match x with Ok s => text_is e s l | Err err => err = UnicodeError end.
Lemma decoded_put e c l r x : char_is e c l -> decoded e r x -> decoded e (l ++ r) (put c x).
Proof. intros H D. destruct x as [s|]; cbn [put rbind decoded] in *; [now constructor|exact D]. Qed.
Lemma utf8_decoded : forall n l, (List.length l <= n)%nat -> bytes_ok l -> decoded Utf8 l (utf8_decode l).
Proof.
  induction n as [|n IH]; intros l Hn B.
  { destruct l; [constructor|cbn in Hn; lia]. }
  destruct l as [|a r]; [constructor|]. inversion B as [|? ? Ha Br]. subst. unfold is_byte in Ha. cbn [List.length] in Hn. cbn [utf8_decode].
  destruct (a <? 128) eqn:E1. { apply (decoded_put Utf8 a [a]); [constructor; lia|apply IH; [lia|exact Br]]. }
  destruct (a <? 194) eqn:E2; [reflexivity|]. destruct r as [|b r]; [reflexivity|]. inversion Br as [|? ? Hb Br2]. subst. cbn [List.length] in Hn.
  unfold tail_byte. destruct (negb ((128 <=? b) && (b <? 192))) eqn:E3; [reflexivity|]. destruct (a <? 224) eqn:E4.
  { apply (decoded_put Utf8 _ [a; b]); [|apply IH; [lia|exact Br2]]. cbn [char_is].
    replace ((a - 192) * 64 + (b - 128)) with (64 * (a - 192) + (b - 128)) by lia.
    replace [a; b] with [192 + (a - 192); 128 + (b - 128)] by (repeat f_equal; lia). constructor; lia. }
  destruct r as [|c r]; [reflexivity|]. inversion Br2 as [|? ? Hc Br3]. subst. cbn [List.length] in Hn.
  destruct (negb ((128 <=? c) && (c <? 192))) eqn:E5; [reflexivity|]. destruct (a <? 240) eqn:E6.
  { destruct (((a =? 224) && (b <? 160)) || ((a =? 237) && (160 <=? b))) eqn:E7; [reflexivity|].
    apply (decoded_put Utf8 _ [a; b; c]); [|apply IH; [lia|exact Br3]]. cbn [char_is].
    replace ((a - 224) * 4096 + (b - 128) * 64 + (c - 128)) with (4096 * (a - 224) + 64 * (b - 128) + (c - 128)) by lia.
    replace [a; b; c] with [224 + (a - 224); 128 + (b - 128); 128 + (c - 128)] by (repeat f_equal; lia). constructor; unfold scalar; lia. }
  destruct r as [|d r]; [reflexivity|]. inversion Br3 as [|? ? Hd Br4]. subst. cbn [List.length] in Hn.
  match goal with |- context [if ?x then _ else _] => destruct x eqn:E7 end; [reflexivity|].
  apply (decoded_put Utf8 _ [a; b; c; d]); [|apply IH; [lia|exact Br4]]. cbn [char_is].
  replace ((a - 240) * 262144 + (b - 128) * 4096 + (c - 128) * 64 + (d - 128)) with (262144 * (a - 240) + 4096 * (b - 128) + 64 * (c - 128) + (d - 128)) by lia.
  replace [a; b; c; d] with [240 + (a - 240); 128 + (b - 128); 128 + (c - 128); 128 + (d - 128)] by (repeat f_equal; lia). constructor; lia.
Qed.

Lemma unit_two big u l : unit_is big u l -> exists a b, l = [a; b] /\ unit_of big a b = u.
Proof. intros (h & t & _ & _ & -> & ->). unfold unit_of. destruct big; do 2 eexists; split; reflexivity. Qed.
Lemma unit_of_is big a b : is_byte a -> is_byte b -> unit_is big (unit_of big a b) [a; b].
Proof. intros Ha Hb. unfold unit_of. destruct big; [exists a, b|exists b, a]; auto. Qed.
Lemma unit_of_range big a b : is_byte a -> is_byte b -> 0 <= unit_of big a b < 65536.
Proof. unfold is_byte, unit_of. destruct big; lia. Qed.
Lemma utf16_step big c l r : utf16_is big c l -> utf16_decode big (l ++ r) = put c (utf16_decode big r).
Proof.
  intros H. destruct H as [c l Hs Hc U|h t l1 l2 Hh Ht U1 U2].
  - destruct (unit_two _ _ _ U) as (a & b & -> & E). cbn [app utf16_decode]. rewrite E. unfold scalar in Hs. now replace ((c <? 55296) || (57344 <=? c)) with true by lia.
  - destruct (unit_two _ _ _ U1) as (a & b & -> & E1). destruct (unit_two _ _ _ U2) as (x & y & -> & E2). cbn [app utf16_decode]. rewrite E1, E2.
    replace ((55296 + h <? 55296) || (57344 <=? 55296 + h)) with false by lia. replace (56320 <=? 55296 + h) with false by lia.
    replace ((56320 <=? 56320 + t) && (56320 + t <? 57344)) with true by lia. f_equal. lia.
Qed.
Definition utf16_codec (big : bool) : codec := if big then Utf16BE else Utf16LE.
Lemma utf16_codec_char big c l : char_is (utf16_codec big) c l = utf16_is big c l.
Proof. destruct big; reflexivity. Qed.
Lemma utf16_decoded big : forall n l, (List.length l <= n)%nat -> bytes_ok l -> decoded (utf16_codec big) l (utf16_decode big l).
Proof.
  induction n as [|n IH]; intros l Hn B.
  { destruct l; [constructor|cbn in Hn; lia]. }
  destruct l as [|a [|b r]]; [constructor|reflexivity|]. inversion B as [|? ? Ha Br]. inversion Br as [|? ? Hb Br2]. subst. cbn [List.length] in Hn. cbn [utf16_decode].
  pose proof (unit_of_range big a b Ha Hb) as R. pose proof (unit_of_is big a b Ha Hb) as U. set (u := unit_of big a b) in *.
  destruct ((u <? 55296) || (57344 <=? u)) eqn:E1.
  { apply (decoded_put (utf16_codec big) u [a; b]); [|apply IH; [lia|exact Br2]]. rewrite utf16_codec_char. apply utf16_1; [unfold scalar; lia|lia|exact U]. }
  destruct (56320 <=? u) eqn:E2; [reflexivity|]. destruct r as [|x [|y r]]; [reflexivity|reflexivity|].
  inversion Br2 as [|? ? Hx Br3]. inversion Br3 as [|? ? Hy Br4]. subst. cbn [List.length] in Hn.
  pose proof (unit_of_range big x y Hx Hy) as R2. pose proof (unit_of_is big x y Hx Hy) as U2. set (w := unit_of big x y) in *.
  destruct ((56320 <=? w) && (w <? 57344)) eqn:E3; [|reflexivity].
  apply (decoded_put (utf16_codec big) _ ([a; b] ++ [x; y])); [|apply IH; [lia|exact Br4]]. rewrite utf16_codec_char.
  replace (65536 + (u - 55296) * 1024 + (w - 56320)) with (65536 + 1024 * (u - 55296) + (w - 56320)) by lia.
  apply utf16_2; [lia|lia| |].
  - now replace (55296 + (u - 55296)) with u by lia.
  - now replace (56320 + (w - 56320)) with w by lia.
Qed.

Lemma single_text e (P : Z -> Prop) : (forall c, P c -> char_is e c [c]) -> forall s, Forall P s -> text_is e s s.
Proof. intros H s. induction 1 as [|c s Hc _ IH]; [constructor|]. exact (text_cons e c s [c] s (H c Hc) IH). Qed.
Lemma text_single e s l : (forall c x, char_is e c x -> x = [c]) -> text_is e s l -> l = s.
Proof. intros H. induction 1 as [|c s l r Hc _ IH]; [reflexivity|]. now rewrite (H _ _ Hc), IH. Qed.

Lemma decode_text e s l : text_is e s l -> decode e l = Ok s.
Proof.
  destruct e; cbn [decode].
  - intros H. assert (A : is_ascii s) by (induction H as [|c s l r (Hc & _) _ IH]; constructor; auto).
    rewrite (text_single Ascii s l (fun c x K => proj2 K) H). exact (proj2 (ascii_ok s A)).
  - intros H. rewrite (text_single Latin1 s l (fun c x K => proj2 K) H). reflexivity.
  - induction 1 as [|c s l r Hc _ IH]; [reflexivity|]. rewrite (utf8_step c l r Hc), IH. reflexivity.
  - induction 1 as [|c s l r Hc _ IH]; [reflexivity|]. rewrite (utf16_step false c l r Hc), IH. reflexivity.
  - induction 1 as [|c s l r Hc _ IH]; [reflexivity|]. rewrite (utf16_step true c l r Hc), IH. reflexivity.
Qed.
Lemma decode_decoded e l : bytes_ok l -> decoded e l (decode e l).
Proof.
  intros B. destruct e; cbn [decode].
  - unfold ascii_decode. destruct (forallb _ l) eqn:E; [|reflexivity]. cbn [decoded]. apply (single_text Ascii (fun c => 0 <= c < 128)).
    + intros c Hc. split; auto.
    + apply Forall_forall. intros c Hc. rewrite forallb_forall in E. apply E in Hc. lia.
  - cbn [decoded]. apply (single_text Latin1 is_byte); [|exact B]. intros c Hc. unfold is_byte in Hc. split; [lia|reflexivity].
  - exact (utf8_decoded _ l (le_n _) B).
  - exact (utf16_decoded false _ l (le_n _) B).
  - exact (utf16_decoded true _ l (le_n _) B).
Qed.
Lemma decode_spec e l s : bytes_ok l -> (decode e l = Ok s <-> text_is e s l).
Proof.
  intros B. split; [|apply decode_text]. intros H. pose proof (decode_decoded e l B) as D. now rewrite H in D.
Qed.
Lemma decode_fails e l : bytes_ok l -> (forall s, ~ text_is e s l) -> decode e l = Err UnicodeError.
Proof. intros B N. pose proof (decode_decoded e l B) as D. destruct (decode e l) as [s|x]; cbn [decoded] in D; [now apply N in D|now subst]. Qed.

(** ** Bytes of texts *)
Lemma unit_ok big u l : unit_is big u l -> bytes_ok l.
Proof. intros (h & t & H1 & H2 & _ & ->). destruct big; (constructor; [assumption|constructor; [assumption|constructor]]). Qed.
Lemma char_ok e c l : char_is e c l -> bytes_ok l.
Proof.
  destruct e; cbn [char_is].
  - intros (H & ->). constructor; [unfold is_byte; lia|constructor].
  - intros (H & ->). constructor; [unfold is_byte; lia|constructor].
  - intros H. destruct H; unfold scalar in *; repeat (apply Forall_cons; [unfold is_byte; lia|]); constructor.
  - intros H. destruct H; [eapply unit_ok; eauto|apply bytes_ok_app; split; eapply unit_ok; eauto].
  - intros H. destruct H; [eapply unit_ok; eauto|apply bytes_ok_app; split; eapply unit_ok; eauto].
Qed.
Lemma text_ok e s l : text_is e s l -> bytes_ok l.
Proof. induction 1 as [|c s l r Hc _ IH]; [constructor|]. apply bytes_ok_app. split; [eapply char_ok; eauto|exact IH]. Qed.

(** ** Fields *)
Lemma pack_text_sized e j c n v s l : 0 <= n -> py_str v = Ok s -> text_is e s l ->
  exists r, pack_text e (ABytes [c]) j (Some (8 * n)) v = Ok (BArr r) /\ padded j c n l r.
Proof.
  intros Hn Hv Hs. unfold pack_text. change (strarg_len (ABytes [c]) =? 1) with true. cbn [passert rbind].
  rewrite int_size_ok by auto. cbn [rbind]. rewrite Hv. cbn [rbind]. rewrite (proj2 (encode_spec e s l) Hs). cbn [rbind].
  replace (8 * n / 8) with n by lia. destruct (py_justify_spec j l n c Hn) as (r & E & P). rewrite E. exists r. auto.
Qed.
Lemma pack_text_unsized e j c v s l : py_str v = Ok s -> text_is e s l -> pack_text e (ABytes [c]) j None v = Ok (BArr l).
Proof.
  intros Hv Hs. unfold pack_text. change (strarg_len (ABytes [c]) =? 1) with true. cbn [passert rbind int_size].
  rewrite Hv. cbn [rbind]. rewrite (proj2 (encode_spec e s l) Hs). reflexivity.
Qed.
Lemma pack_text_fails e j c size v s : (size = None \/ exists n, 0 <= n /\ size = Some (8 * n)) -> py_str v = Ok s -> ~ Forall (has_char e) s ->
  pack_text e (ABytes [c]) j size v = Err UnicodeError.
Proof.
  intros Hz Hv Hs. unfold pack_text. change (strarg_len (ABytes [c]) =? 1) with true. cbn [passert rbind].
  assert (I : int_size size = Ok size) by (destruct Hz as [->|(n & Hn & ->)]; [reflexivity|now apply int_size_ok]).
  rewrite I. cbn [rbind]. rewrite Hv. cbn [rbind]. rewrite (encode_fails e s Hs). reflexivity.
Qed.
Lemma unpack_text_sized e j strip c n b core : 0 <= n <= blen b -> buf_ok b -> is_view b ->
  field_text j strip c (firstn (Z.to_nat n) (bytes_of_bits (buf_bits b))) core ->
  unpack_text e (ABytes [c]) (ABytes strip) j (Some (8 * n)) b
  = (let* s := decode e core in Ok (VStr s, Some (8 * blen b))).
Proof.
  intros Hn K V (mid & T1 & T2). unfold unpack_text. change (strarg_len (ABytes [c]) =? 1) with true. cbn [passert rbind].
  rewrite int_size_ok by lia. cbn [rbind]. replace (8 * n / 8) with n by lia.
  replace (negb (8 * n =? 0) && (blen b <? n)) with false by lia. cbn [rbind].
  destruct (prefix_bytes_any b n K V) as (p & l & P1 & P2 & _ & _ & El); [lia|]. rewrite P1. cbn [rbind]. rewrite P2. cbn [rbind].
  rewrite El, (py_strip_spec j strip _ mid T1). cbn [rbind]. rewrite (py_strip_spec j [c] _ core T2). reflexivity.
Qed.
Lemma text_roundtrip e j strip c n s l : 0 <= n -> zlen l <= n -> is_byte c -> text_is e s l -> no_strip j (c :: strip) l ->
  exists r, pack_text e (ABytes [c]) j (Some (8 * n)) (VStr s) = Ok (BArr r) /\ bytes_ok r /\ zlen r = n /\ padded j c n l r
    /\ forall b rest, view_with b (bits_of_bytes r ++ rest) ->
         unpack_text e (ABytes [c]) (ABytes strip) j (Some (8 * n)) b = Ok (VStr s, Some (8 * blen b)).
Proof.
  intros Hn Hs Hc Ha Nt. destruct (pack_text_sized e j c n (VStr s) s l Hn eq_refl Ha) as (r & E & P). exists r. split; [auto|].
  assert (B : bytes_ok r) by (eapply padded_ok; eauto using text_ok). split; [auto|].
  assert (L : zlen r = n) by (destruct P as (a & b & _ & L & _); lia). split; [auto|]. split; [auto|].
  intros b rest Hb. destruct (bytes_prefix b r rest Hb B) as (F & Lb). pose proof Hb as (K & V & _).
  rewrite (unpack_text_sized e j strip c n b l); auto; [|lia|].
  - rewrite (decode_text e s l Ha). reflexivity.
  - replace (Z.to_nat n) with (length r) by (unfold zlen in L; lia). rewrite F. eapply padded_text; eauto.
Qed.

(** ** UTF-8 and ASCII characters *)
Lemma utf8_ends c l : utf8_is c l -> (exists x t, l = x :: t /\ (x < 128 -> x = c)) /\ (exists x t, l = t ++ [x] /\ (x < 128 -> x = c)).
Proof.
  intros H. destruct H; (split; [do 2 eexists; split; [reflexivity|lia]|]).
  - exists c, []. auto.
  - exists (128 + b), [192 + a]. split; [reflexivity|lia].
  - exists (128 + c), [224 + a; 128 + b]. split; [reflexivity|lia].
  - exists (128 + d), [240 + a; 128 + b; 128 + c]. split; [reflexivity|lia].
Qed.
Lemma utf8_first s l : text_is Utf8 s l -> forall x t, l = x :: t -> x < 128 -> exists u, s = x :: u.
Proof.
  intros H x t E Hx. destruct H as [|c s l r Hc Hs]; [discriminate|]. destruct (utf8_ends c l Hc) as ((y & v & -> & Hy) & _).
  cbn in E. injection E as -> _. exists s. now rewrite (Hy Hx).
Qed.
Lemma utf8_empty s l : text_is Utf8 s l -> l = [] -> s = [].
Proof.
  intros H E. destruct H as [|c s l r Hc Hs]; [reflexivity|]. destruct (utf8_ends c l Hc) as ((y & v & -> & _) & _). discriminate.
Qed.
Lemma utf8_last s l : text_is Utf8 s l -> forall x t, l = t ++ [x] -> x < 128 -> exists u, s = u ++ [x].
Proof.
  intros H. induction H as [|c s l r Hc Hs IH]; intros x t E Hx; [destruct t; discriminate|].
  destruct r as [|y r].
  - rewrite app_nil_r in E. destruct (utf8_ends c l Hc) as (_ & (z & v & -> & Hz)). apply app_inj_tail in E as (_ & ->).
    pose proof (utf8_empty s [] Hs eq_refl) as S0.
    exists []. rewrite S0, (Hz Hx). reflexivity.
  - destruct (exists_last (l := y :: r)) as (r' & z & Ez); [discriminate|]. rewrite Ez, app_assoc in E. apply app_inj_tail in E as (_ & ->).
    destruct (IH x r' Ez Hx) as (u & ->). now exists (c :: u).
Qed.
Lemma utf8_no_strip j set s l : Forall (fun x => x < 128) set -> text_is Utf8 s l -> no_strip j set s -> no_strip j set l.
Proof.
  intros A H (N1 & N2). split; intros Hj x t E Hx; pose proof (proj1 (Forall_forall _ _) A x Hx) as Hl; cbv beta in Hl.
  - destruct (utf8_first s l H x t E Hl) as (u & ->). exact (N1 Hj x u eq_refl Hx).
  - destruct (utf8_last s l H x t E Hl) as (u & ->). exact (N2 Hj x u eq_refl Hx).
Qed.
Lemma utf8_roundtrip j strip c n s l : 0 <= n -> zlen l <= n -> 0 <= c < 128 -> Forall (fun x => x < 128) strip -> text_is Utf8 s l -> no_strip j (c :: strip) s ->
  exists r, pack_text Utf8 (ABytes [c]) j (Some (8 * n)) (VStr s) = Ok (BArr r) /\ bytes_ok r /\ zlen r = n /\ padded j c n l r
    /\ forall b rest, view_with b (bits_of_bytes r ++ rest) ->
         unpack_text Utf8 (ABytes [c]) (ABytes strip) j (Some (8 * n)) b = Ok (VStr s, Some (8 * blen b)).
Proof.
  intros Hn Hl Hc Ha Ht Nt. apply text_roundtrip; auto; [unfold is_byte; lia|].
  apply (utf8_no_strip j (c :: strip) s l); auto. constructor; [lia|exact Ha].
Qed.

(** ** UTF-16: an odd number of bytes is no text *)
Lemma utf16_even big c l : utf16_is big c l -> zlen l mod 2 = 0.
Proof.
  intros H. destruct H as [c l _ _ U|h t l1 l2 _ _ U1 U2].
  - destruct (unit_two _ _ _ U) as (a & b & -> & _). reflexivity.
  - destruct (unit_two _ _ _ U1) as (a & b & -> & _). destruct (unit_two _ _ _ U2) as (x & y & -> & _). reflexivity.
Qed.
Lemma utf16_text_even big s l : text_is (utf16_codec big) s l -> zlen l mod 2 = 0.
Proof.
  induction 1 as [|c s l r Hc _ IH]; [reflexivity|]. rewrite utf16_codec_char in Hc. apply utf16_even in Hc. rewrite zlen_app. lia.
Qed.
Lemma text_snoc e s l c x : text_is e s l -> char_is e c x -> text_is e (s ++ [c]) (l ++ x).
Proof.
  intros H Hc. induction H as [|d s l r Hd _ IH].
  - cbn. rewrite <- (app_nil_r x). constructor; [exact Hc|constructor].
  - rewrite <- app_assoc. cbn. now constructor.
Qed.
(** A text that fills its field, with a last character below 256: the zero that is its high byte is stripped. *)
Lemma utf16_full t lt ch : text_is Utf16LE t lt -> 0 < ch < 256 -> ch <> 32 ->
  let l := lt ++ [ch; 0] in
  text_is Utf16LE (t ++ [ch]) l
  /\ pack_text Utf16LE (ABytes [32]) JLeft (Some (8 * zlen l)) (VStr (t ++ [ch])) = Ok (BArr l)
  /\ forall b rest, view_with b (bits_of_bytes l ++ rest) ->
       unpack_text Utf16LE (ABytes [32]) (ABytes [0]) JLeft (Some (8 * zlen l)) b = Err UnicodeError.
Proof.
  intros Ht Hch Hsp l.
  assert (C : char_is Utf16LE ch [ch; 0]).
  { cbn [char_is]. apply utf16_1; [unfold scalar; lia|lia|]. exists 0, ch. unfold is_byte. repeat split; lia. }
  pose proof (text_snoc Utf16LE t lt ch [ch; 0] Ht C) as T. fold l in T. split; [exact T|]. pose proof (zlen_nonneg l) as L0.
  destruct (pack_text_sized Utf16LE JLeft 32 (zlen l) (VStr (t ++ [ch])) (t ++ [ch]) l L0 eq_refl T) as (r & E & P).
  assert (R : r = l).
  { destruct P as (x & y & Er & Lr & Hx). subst x. rewrite Er in Lr. cbn [repeat app] in Er, Lr. rewrite zlen_app, zlen_repeat in Lr.
    assert (y = 0%nat) by lia. subst y. rewrite Er. apply app_nil_r. }
  subst r. split; [exact E|]. intros b rest Hb. pose proof (text_ok _ _ _ T) as B. destruct (bytes_prefix b l rest Hb B) as (F & Lb). pose proof Hb as (K & V & _).
  rewrite (unpack_text_sized Utf16LE JLeft [0] 32 (zlen l) b (lt ++ [ch])); auto.
  - rewrite decode_fails; [reflexivity| |].
    + apply bytes_ok_app. split; [exact (text_ok _ _ _ Ht)|]. constructor; [unfold is_byte; lia|constructor].
    + intros s Hs. apply (utf16_text_even false) in Hs. pose proof (utf16_text_even false _ _ Ht) as Et. rewrite zlen_app in Hs. change (zlen [ch]) with 1 in Hs. lia.
  - replace (Z.to_nat (zlen l)) with (List.length l) by (unfold zlen; lia). rewrite F. exists (lt ++ [ch]). split.
    + exists [], [0]. split; [unfold l; cbn [app]; now rewrite <- app_assoc|]. split; [constructor|]. split; [repeat constructor|]. split; [reflexivity|].
      cbn [strip_right]. intros x u Eu [<-|[]]. apply app_inj_tail in Eu as (_ & Eu). lia.
    + exists [], []. split; [cbn [app]; now rewrite app_nil_r|]. split; [constructor|]. split; [constructor|]. split; [reflexivity|].
      cbn [strip_right]. intros x u Eu [<-|[]]. apply app_inj_tail in Eu as (_ & Eu). congruence.
Qed.

(** ** ASCII is what [Serialize] has *)
Lemma encode_ascii s : encode Ascii s = ascii_encode s.
Proof.
  unfold ascii_encode. induction s as [|c s IH]; [reflexivity|]. cbn [encode encode_char forallb]. rewrite IH.
  destruct ((0 <=? c) && (c <? 128)); cbn [rbind andb]; [|reflexivity]. destruct (forallb _ s); reflexivity.
Qed.
Lemma ascii_pack p j n s : pack_text Ascii p j n (VStr s) = pack_str p j n (VStr s).
Proof. unfold pack_text, pack_str. destruct (passert _); [|reflexivity]. cbn [rbind]. destruct (int_size n); [|reflexivity]. cbn [rbind py_str]. now rewrite encode_ascii. Qed.
Lemma ascii_unpack p strip j n b : unpack_text Ascii p strip j n b = unpack_str p strip j n b.
Proof. reflexivity. Qed.

(** ** Values that are no strings *)
Lemma number_app ds ds' : forall acc, number_of (ds ++ ds') acc = number_of ds' (number_of ds acc).
Proof. induction ds as [|d ds IH]; intros acc; [reflexivity|]. cbn. apply IH. Qed.
Lemma digits_spec : forall k n acc, 0 <= n < 2 ^ Z.of_nat k -> (0 < k)%nat ->
  exists ds, digits k n acc = map (Z.add 48) ds ++ acc /\ decimal_digits n ds.
Proof.
  induction k as [|k IH]; intros n acc Hn Hk; [lia|]. cbn [digits]. destruct (n <? 10) eqn:E.
  - exists [n]. split; [reflexivity|]. split; [constructor; [lia|constructor]|]. split; [cbn; lia|]. split; [intros H; now exists n, []|now intros ->].
  - assert (P : 2 ^ Z.of_nat (S k) = 2 * 2 ^ Z.of_nat k) by (rewrite Nat2Z.inj_succ, Z.pow_succ_r; lia).
    assert (K0 : (0 < k)%nat). { destruct k; [cbn in Hn; lia|lia]. }
    destruct (IH (n / 10) ((48 + n mod 10) :: acc)) as (ds & D1 & D2 & D3 & D4 & D5); [lia|exact K0|].
    exists (ds ++ [n mod 10]). split; [rewrite D1, map_app, <- app_assoc; reflexivity|]. split.
    + apply Forall_app. split; [exact D2|]. constructor; [lia|constructor].
    + split; [rewrite number_app, D3; cbn [number_of]; lia|]. split; [|lia]. intros _. destruct D4 as (d & r & -> & Hd); [lia|]. exists d, (r ++ [n mod 10]). auto.
Qed.
Lemma decimal_shows n : shows_int n (decimal n).
Proof.
  unfold decimal. set (k := S (Z.to_nat (Z.log2 (Z.abs n)))).
  destruct (digits_spec k (Z.abs n) []) as (ds & D1 & D2); [|lia|].
  - split; [lia|]. unfold k. rewrite Nat2Z.inj_succ. rewrite Z2Nat.id by apply Z.log2_nonneg.
    destruct (Z.eq_dec (Z.abs n) 0) as [->|N]; [reflexivity|]. apply Z.log2_spec. lia.
  - exists ds. split; [exact D2|]. rewrite D1, app_nil_r. destruct (n <? 0); reflexivity.
Qed.
Lemma shows_ascii n t : shows_int n t -> is_ascii t.
Proof.
  intros (ds & (F & _) & ->). apply Forall_app. split; [destruct (n <? 0); [constructor; [lia|constructor]|constructor]|].
  apply Forall_map. eapply Forall_impl; [|exact F]. intros a Ha. cbv beta in *. lia.
Qed.
Lemma repr_shape l : exists q mid, (q = 39 \/ q = 34) /\ repr_bytes l = [98; q] ++ mid ++ [q] /\ zlen l <= zlen mid /\ (Forall plain_byte l -> q = 39 /\ mid = l).
Proof.
  unfold repr_bytes. set (q := if existsb (Z.eqb 39) l && negb (existsb (Z.eqb 34) l) then 34 else 39). exists q, (flat_map (repr_byte q) l). split; [unfold q; destruct (existsb (Z.eqb 39) l && negb (existsb (Z.eqb 34) l)); auto|]. split; [reflexivity|]. split.
  - clearbody q. induction l as [|b l IH]; [reflexivity|]. cbn [flat_map]. rewrite zlen_app.
    assert (zlen (b :: l) = 1 + zlen l) by (unfold zlen; cbn [List.length]; lia).
    assert (1 <= zlen (repr_byte q b)). { unfold repr_byte. repeat match goal with |- context [if ?x then _ else _] => destruct x end; unfold zlen; cbn; lia. }
    lia.
  - intros F. assert (Q : q = 39).
    { unfold q. replace (existsb (Z.eqb 39) l) with false; [reflexivity|]. symmetry. apply not_true_is_false. intros X. apply existsb_exists in X.
      destruct X as (x & Hx & Ex). apply (proj1 (Forall_forall _ _) F) in Hx. unfold plain_byte in Hx. lia. }
    split; [exact Q|]. rewrite Q. clear q Q. induction F as [|b l (H1 & H2 & H3 & H4) F IH]; [reflexivity|]. cbn [flat_map]. rewrite IH. unfold repr_byte.
    replace ((b =? 39) || (b =? 92)) with false by lia. replace (b =? 9) with false by lia. replace (b =? 10) with false by lia. replace (b =? 13) with false by lia.
    replace ((b <? 32) || (127 <=? b)) with false by lia. reflexivity.
Qed.
Lemma repr_ascii l : bytes_ok l -> is_ascii (repr_bytes l).
Proof.
  intros B. unfold repr_bytes. set (q := if existsb (Z.eqb 39) l && negb (existsb (Z.eqb 34) l) then 34 else 39). assert (Q : q = 34 \/ q = 39) by (unfold q; destruct (existsb (Z.eqb 39) l && negb (existsb (Z.eqb 34) l)); auto). clearbody q.
  apply Forall_app. split; [constructor; [lia|constructor; [lia|constructor]]|]. apply Forall_app. split; [|constructor; [lia|constructor]].
  induction B as [|b l Hb _ IH]; [constructor|]. cbn [flat_map]. apply Forall_app. split; [|exact IH]. unfold is_byte in Hb. unfold repr_byte, hex_digit.
  repeat match goal with |- context [if ?x then _ else _] => destruct x eqn:? end; repeat (apply Forall_cons; [lia|]); constructor.
Qed.
Lemma ascii_text s : is_ascii s -> text_is Ascii s s.
Proof. apply (single_text Ascii (fun c => 0 <= c < 128)). intros c Hc. split; auto. Qed.

(** repr() of bytes can be read back. *)
Definition escaped (q b x : Z) : Prop := (x = b /\ (b = q \/ b = 92)) \/ (x = 116 /\ b = 9) \/ (x = 110 /\ b = 10) \/ (x = 114 /\ b = 13).
Lemma repr_byte_cases q b : q = 34 \/ q = 39 -> is_byte b ->
  (repr_byte q b = [b] /\ b <> 92 /\ b <> q) \/ (exists x, repr_byte q b = [92; x] /\ escaped q b x)
  \/ repr_byte q b = [92; 120; hex_digit (b / 16); hex_digit (b mod 16)].
Proof.
  intros Q B. unfold repr_byte, escaped.
  destruct ((b =? q) || (b =? 92)) eqn:E1; [right; left; exists b; split; [reflexivity|lia]|].
  destruct (b =? 9) eqn:E2; [right; left; exists 116; split; [reflexivity|lia]|].
  destruct (b =? 10) eqn:E3; [right; left; exists 110; split; [reflexivity|lia]|].
  destruct (b =? 13) eqn:E4; [right; left; exists 114; split; [reflexivity|lia]|].
  destruct ((b <? 32) || (127 <=? b)); [now right; right|]. left. split; [reflexivity|lia].
Qed.
Lemma hex_inj a b : 0 <= a < 16 -> 0 <= b < 16 -> hex_digit a = hex_digit b -> a = b.
Proof. unfold hex_digit. destruct (a <? 10) eqn:?, (b <? 10) eqn:?; lia. Qed.
Lemma repr_byte_inj q b b' r r' : q = 34 \/ q = 39 -> is_byte b -> is_byte b' -> repr_byte q b ++ r = repr_byte q b' ++ r' -> b = b' /\ r = r'.
Proof.
  intros Q B B' H. pose proof B as B0. pose proof B' as B0'. unfold is_byte in B0, B0'.
  destruct (repr_byte_cases q b Q B) as [(E & N1 & N2)|[(x & E & X)|E]]; destruct (repr_byte_cases q b' Q B') as [(E' & N1' & N2')|[(x' & E' & X')|E']];
    rewrite E, E' in H; cbn [app] in H; unfold escaped in *; try (injection H; intros; lia).
  - injection H as -> ->. auto.
  - injection H as -> ->. split; [lia|reflexivity].
  - injection H as H1 H2 ->. apply hex_inj in H1; [|lia|lia]. apply hex_inj in H2; [|lia|lia]. split; [lia|reflexivity].
Qed.
Lemma repr_byte_first q b : q = 34 \/ q = 39 -> is_byte b -> exists x t, repr_byte q b = x :: t /\ x <> q.
Proof.
  intros Q B. destruct (repr_byte_cases q b Q B) as [(E & _ & N)|[(x & E & _)|E]]; rewrite E; do 2 eexists; (split; [reflexivity|lia]).
Qed.
Lemma repr_inj l l' : bytes_ok l -> bytes_ok l' -> repr_bytes l = repr_bytes l' -> l = l'.
Proof.
  unfold repr_bytes. set (q := if existsb (Z.eqb 39) l && negb (existsb (Z.eqb 34) l) then 34 else 39).
  set (q' := if existsb (Z.eqb 39) l' && negb (existsb (Z.eqb 34) l') then 34 else 39). intros B B' H. cbn [app] in H. injection H as Eq H.
  assert (Q : q = 34 \/ q = 39) by (unfold q; destruct (existsb (Z.eqb 39) l && negb (existsb (Z.eqb 34) l)); auto). rewrite <- Eq in H. clearbody q. clear Eq q'.
  revert l' B' H. induction B as [|b l Hb B IH]; intros l' B' H; destruct B' as [|b' l' Hb' B'].
  - reflexivity.
  - exfalso. cbn [flat_map] in H. destruct (repr_byte_first q b' Q Hb') as (x & t & E & N). rewrite E in H. cbn in H. injection H as H _. congruence.
  - exfalso. cbn [flat_map] in H. destruct (repr_byte_first q b Q Hb) as (x & t & E & N). rewrite E in H. cbn in H. injection H as H _. congruence.
  - cbn [flat_map] in H. rewrite <- !app_assoc in H. apply repr_byte_inj in H; auto. destruct H as (-> & H). f_equal. now apply IH.
Qed.
Lemma map48_inj ds ds' : map (Z.add 48) ds = map (Z.add 48) ds' -> ds = ds'.
Proof.
  revert ds'. induction ds as [|d ds IH]; intros [|d' ds'] H; try discriminate; [reflexivity|]. apply (f_equal (@tl Z)) in H as T. apply (f_equal (hd 0)) in H as D.
  cbn [map tl hd] in T, D. f_equal; [lia|now apply IH].
Qed.
Lemma shows_inj n n' t : shows_int n t -> shows_int n' t -> n = n'.
Proof.
  intros (ds & (F & V & _) & E) (ds' & (F' & V' & _) & E'). rewrite E in E'. clear E.
  destruct (n <? 0) eqn:S, (n' <? 0) eqn:S'; cbn [app] in E'.
  - apply (f_equal (@tl Z)) in E'. cbn [tl] in E'. apply map48_inj in E'. subst ds'. lia.
  - exfalso. destruct ds' as [|d r]; [discriminate|]. inversion F' as [|? ? Hd _]. subst. apply (f_equal (hd 0)) in E'. cbn [map hd] in E'. lia.
  - exfalso. destruct ds as [|d r]; [discriminate|]. inversion F as [|? ? Hd _]. subst. apply (f_equal (hd 0)) in E'. cbn [map hd] in E'. lia.
  - apply map48_inj in E'. subst ds'. lia.
Qed.

(** The exact text of a bytes object. *)
Lemma hex_shown n : 0 <= n < 16 -> nth_error hex_digits (Z.to_nat n) = Some (hex_digit n).
Proof.
  intros H. assert (C : n = 0 \/ n = 1 \/ n = 2 \/ n = 3 \/ n = 4 \/ n = 5 \/ n = 6 \/ n = 7 \/ n = 8 \/ n = 9 \/ n = 10 \/ n = 11 \/ n = 12 \/ n = 13 \/ n = 14 \/ n = 15) by lia.
  repeat (destruct C as [-> |C]; [reflexivity|]). subst. reflexivity.
Qed.
Lemma repr_byte_shows q b : q = 34 \/ q = 39 -> is_byte b -> shows_byte q b (repr_byte q b).
Proof.
  intros Q B. unfold is_byte in B. unfold repr_byte.
  destruct ((b =? q) || (b =? 92)) eqn:E1; [apply sb_quoted; lia|].
  destruct (Z.eqb_spec b 9) as [->|E2]; [constructor|]. destruct (Z.eqb_spec b 10) as [->|E3]; [constructor|]. destruct (Z.eqb_spec b 13) as [->|E4]; [constructor|].
  destruct ((b <? 32) || (127 <=? b)) eqn:E5; [|apply sb_plain; lia].
  apply sb_hex; try lia; apply hex_shown; lia.
Qed.
Lemma repr_bytes_shows l : bytes_ok l -> exists q ts, quote_for l q /\ Forall2 (shows_byte q) l ts /\ repr_bytes l = [98; q] ++ List.concat ts ++ [q].
Proof.
  intros B. unfold repr_bytes. set (q := if existsb (Z.eqb 39) l && negb (existsb (Z.eqb 34) l) then 34 else 39).
  assert (I : forall x, existsb (Z.eqb x) l = true <-> In x l).
  { intros x. rewrite existsb_exists. split; [intros (y & H & E); apply Z.eqb_eq in E; now subst|]. intros H. exists x. split; [auto|apply Z.eqb_refl]. }
  exists q, (map (repr_byte q) l). split; [|split].
  - unfold quote_for, q. rewrite <- !I. destruct (existsb (Z.eqb 39) l), (existsb (Z.eqb 34) l); cbn; intuition congruence.
  - assert (Q : q = 34 \/ q = 39) by (unfold q; destruct (existsb (Z.eqb 39) l && negb (existsb (Z.eqb 34) l)); auto). clearbody q. clear I.
    induction B as [|b l Hb B IH]; constructor; auto. now apply repr_byte_shows.
  - now rewrite flat_map_concat_map.
Qed.

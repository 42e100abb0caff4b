(** Property C88: fields whose class is chosen when they are unpacked (unpack_selector). *)
From Verif Require Import Base BaseProofs IntCodec CodecSpec Stream Marshal FieldSpec Range RangeSpec IoBuffer IoSpec IoProofs IoFacts Serialize SerializeSpec
  SerializeFacts SerializeLists RefEngine RefSpec BufferModel BufferSpec SeeSpec BufferMacros BufferCodecSpec BufferDep BufferNested BufferExamples
  SelectModel SelectSpec SelectProofs SelectExamples.
From Coq Require Import ZArith List Bool String Lia.
Import ListNotations.
Open Scope string_scope.
Open Scope list_scope.
Open Scope Z_scope.

(** ** C88.  What unpacking gives depends on the selector alone: an object of the class it returned,
    unpacked from the same bits (with that object's exceptions); the object and the size it returned;
    None of size 0 if it returned None.  Anything else is an AssertionError. *)
Theorem C88_selected : forall tbl sel size k args a b n,
  let r := f_unpack (selector_field tbl sel size k) args a b n in
  (forall nm C, sel a b n = Ok (SelType nm C) -> NoDup (map f_name (k_fields C)) ->
     match buffer_unpack C b (map (fun f => (f_name f, f_default f)) (k_fields C)) with
     | (Ok used, o) => r = Ok (VObj nm o, Some used)
     | (Err e, _) => r = Err e
     end)
  /\ (forall v used, sel a b n = Ok (SelPair v used) -> r = Ok (v, used))
  /\ (sel a b n = Ok SelNone -> r = Ok (VNone, Some 0))
  /\ (sel a b n = Ok SelOther -> r = Err AssertionError)
  /\ (forall e, sel a b n = Err e -> r = Err e).
Proof.
  intros tbl sel size k args a b n. cbn zeta. cbn [selector_field f_unpack build].
  split; [|split; [|split; [|split]]]; intros; match goal with H : sel a b n = _ |- _ => rewrite H end; cbn [rbind selected]; try reflexivity.
  unfold unpack_buffer. rewrite init_defaults by assumption. cbn [rbind]. destruct (buffer_unpack C b _) as [[u|e] o]; reflexivity.
Qed.
Print Assumptions C88_selected.

(** What is packed depends on the object alone: its own class packs it. *)
Theorem C88_packs_own_class : forall tbl sel size k args n nm C a bytes, tbl nm = Some C -> fst (buffer_pack C a) = Ok bytes ->
  f_pack (selector_field tbl sel size k) args (VObj nm a) n = Ok (BArr bytes).
Proof. intros tbl sel size k args n nm C a bytes Ht Hp. cbn [selector_field f_pack build pack_object]. rewrite Ht, Hp. reflexivity. Qed.
Print Assumptions C88_packs_own_class.

(** ** Round trips.  The general theorem on layouts holds too if unpackers look at fields of the object
    that come before theirs. *)
Theorem C88_layout_roundtrip : forall C lay o n,
  cls_ok C -> class_layout_seeing C lay o -> apart (places lay) -> layout_size C lay n -> NoDup (map f_name (k_fields C)) ->
  exists bytes o', buffer_pack C o = (Ok bytes, o') /\ bytes_ok bytes
    /\ (exists m, largest_stop (List.concat (places lay)) m
        /\ zlen bytes = (Z.max m (match k_size C with Some k => k | None => 0 end) + 7) / 8)
    /\ same_but_assigned C o o'
    /\ (forall i f e, nth_error (k_fields C) i = Some f -> nth_error lay i = Some (Some e) -> Marshal.lookup o' (f_name f) = Some (e_value e))
    /\ forall b tail o2, buf_ok b -> buf_bits b = bits_of_bytes bytes ++ tail ->
       (forall i e, nth_error lay i = Some (Some e) -> open_until (e_read e) (e_place e) (fun _ _ => 8 * ((zlen (buf_bits b) + 7) / 8))) ->
       exists o'', buffer_unpack C b o2 = (Ok n, o'') /\ holds_layout o'' (k_fields C) lay /\ only_fields_changed C o2 o''.
Proof. exact layout_roundtrip_seeing. Qed.
Print Assumptions C88_layout_roundtrip.

(** Such a layout can be part of another one. *)
Theorem C88_nested_exact : forall C lay o n nm m, cls_ok C -> class_layout_seeing C lay o -> apart (places lay) -> layout_size C lay n ->
  NoDup (map f_name (k_fields C)) -> instance C o -> holds_layout o (k_fields C) lay ->
  largest_stop (List.concat (places lay)) m ->
  (forall e, In (Some e) lay -> open_until (e_read e) (e_place e) (fun _ _ => 8 * ((Z.max m (match k_size C with Some k => k | None => 0 end) + 7) / 8))) ->
  exists bytes, zlen bytes = (Z.max m (match k_size C with Some k => k | None => 0 end) + 7) / 8 /\ restores_exact nm C o bytes n.
Proof. exact layout_restores_exact_seeing. Qed.
Print Assumptions C88_nested_exact.
Theorem C88_nested_from_prefix : forall C lay o n nm, cls_ok C -> class_layout_seeing C lay o -> apart (places lay) -> layout_size C lay n ->
  NoDup (map f_name (k_fields C)) -> instance C o -> holds_layout o (k_fields C) lay ->
  (forall e, In (Some e) lay -> e_read e = e_place e) ->
  exists bytes m, largest_stop (List.concat (places lay)) m /\ zlen bytes = (Z.max m (match k_size C with Some k => k | None => 0 end) + 7) / 8
    /\ restores_prefix nm C o bytes n.
Proof. exact layout_restores_prefix_seeing. Qed.
Print Assumptions C88_nested_from_prefix.

(** A field with a selector restores the object if the selector finds its class from the object's other
    fields and the bytes. *)
Theorem C88_object_codec : forall tbl sel ok byte_size k psize nm C a bytes n, tbl nm = Some C -> restores_exact nm C a bytes n ->
  selects sel ok bytes nm C ->
  codec_restores_if ok (selector_field tbl sel byte_size k) [] [] psize (Some (8 * zlen bytes)) (8 * zlen bytes) (VObj nm a) (BArr bytes) (Some n).
Proof. exact selector_restores. Qed.
Print Assumptions C88_object_codec.
(** A list with a selector restores objects of different classes, with and without a count. *)
Theorem C88_list_codec : forall tbl count sel ok n k psize l bs, mixed tbl sel ok n [] l bs -> n = None \/ n = Some (zlen l) ->
  exists b, blen b = zlen (List.concat bs) /\ buf_bits b = bits_of_bytes (List.concat bs)
    /\ codec_restores_if ok (selector_list tbl count sel k) [] [RVal (match n with None => VNone | Some x => VInt x end)] psize
         (Some (8 * zlen (List.concat bs))) (8 * zlen (List.concat bs)) (VList l) b (Some (8 * zlen (List.concat bs))).
Proof. exact selector_list_restores. Qed.
Print Assumptions C88_list_codec.

(** A kind and a body whose class depends on the kind. *)
Theorem C88_message_roundtrip : forall h tbl choose z nm C a bytes o, 0 <= z < 2 ^ 32 -> tbl nm = Some C -> choose z = Ok (SelType nm C) ->
  restores_exact nm C a bytes (8 * zlen bytes) -> Marshal.lookup o "kind" = Some (VInt z) -> Marshal.lookup o "body" = Some (VObj nm a) ->
  exists packed o', buffer_pack (message h tbl choose) o = (Ok packed, o') /\ bytes_ok packed /\ zlen packed = 4 + zlen bytes
    /\ forall o2, exists o'', buffer_unpack (message h tbl choose) (BArr packed) o2 = (Ok (8 * zlen packed), o'')
       /\ Marshal.lookup o'' "kind" = Some (VInt z) /\ Marshal.lookup o'' "body" = Some (VObj nm a).
Proof. exact message_roundtrip. Qed.
Print Assumptions C88_message_roundtrip.
(** A kind and a list whose elements' classes depend on the kind, the elements before and the index. *)
Theorem C88_records_roundtrip : forall h tbl choose z l bs o, 0 <= z < 2 ^ 32 -> mixed tbl (by_kind_each choose) (kind_is z) None [] l bs ->
  Marshal.lookup o "kind" = Some (VInt z) -> Marshal.lookup o "body" = Some (VList l) ->
  exists packed o', buffer_pack (records h tbl choose) o = (Ok packed, o') /\ bytes_ok packed /\ zlen packed = 4 + zlen (List.concat bs)
    /\ forall o2, exists o'', buffer_unpack (records h tbl choose) (BArr packed) o2 = (Ok (8 * zlen packed), o'')
       /\ Marshal.lookup o'' "kind" = Some (VInt z) /\ Marshal.lookup o'' "body" = Some (VList l).
Proof. exact records_roundtrip. Qed.
Print Assumptions C88_records_roundtrip.

(** ** Lists, whatever the selector does. *)
(** The elements are read one behind the other; the selector sees the ones before and the index.  The
    list ends at the end of the input or when it has [n] elements, and never has more. *)
Theorem C88_list_result : forall sel a n size fuel b l off, select_list_n sel a n size fuel b = Some (Ok (VList l, Some off)) ->
  picked (fun before i s => match sel a before i n s size with Ok x => selected x s | Err e => Err e end) b size [] 0 l off
  /\ (blength b <= off \/ exists k, n = Some k /\ k <= zlen l) /\ (forall k, n = Some k -> zlen l <= Z.max 0 k).
Proof.
  intros sel a n size fuel b l off H. unfold select_list_n in H. destruct (fractional_size size) as [last|] eqn:F; [|discriminate].
  assert (last = size). { destruct size as [w|]; cbn [fractional_size] in F; [|congruence]. destruct (0 <=? w); cbn [passert rbind] in F; congruence. } subst last.
  match type of H with match ?x with _ => _ end = _ => destruct x as [[[l' off']|]|] eqn:E end; try discriminate. injection H as <- <-.
  change 0 with (zlen (@nil value)) in E at 2. apply select_loop_picked in E. destruct E as (new & E & P & Q). cbn [app] in E. subst new. auto.
Qed.
Print Assumptions C88_list_result.

(** A selector that returns None consumes nothing, so without a count the loop goes on for ever. *)
Theorem C88_none_forever_refuted : forall sel a size b, buf_ok b -> is_view b -> 0 < blength b ->
  (forall w, size = Some w -> blength b <= w) ->
  (forall before i s, sel a before i None s size = Ok SelNone) ->
  forall fuel, select_list_n sel a None size fuel b = None.
Proof.
  intros sel a size b K V H Hs N fuel. unfold select_list_n.
  assert (F : fractional_size size = Ok size).
  { destruct size as [w|]; [|reflexivity]. specialize (Hs w eq_refl). cbn [fractional_size]. replace (0 <=? w) with true by lia. reflexivity. }
  rewrite F. destruct (slice_from b 0 size K V ltac:(lia)) as (s & S1 & _); [destruct size; auto|].
  rewrite (select_loop_stuck _ b size) with (s := s); auto. intros acc i s'. now rewrite N.
Qed.
Print Assumptions C88_none_forever_refuted.

(** ** The fields of [BufferMacros] are the special case of one class and a selector that looks at the
    object, the index and the buffer only. *)
Theorem C88_simple_selectors : forall nm C sel size k tbl args a b n,
  f_unpack (buffer_field nm C (Some sel) size k) args a b n = f_unpack (selector_field tbl (fun a b _ => sel a b) size k) args a b n.
Proof. reflexivity. Qed.
Print Assumptions C88_simple_selectors.
Theorem C88_simple_list_selectors : forall t cnt sel k tbl args a b size,
  f_unpack (list_field t cnt (Some sel) k) args a b size = f_unpack (selector_list tbl cnt (fun a _ i _ b _ => sel a i b) k) args a b size.
Proof.
  intros t cnt sel k tbl args a b size. cbn [list_field selector_list f_unpack build]. destruct (count_of args) as [c|e]; cbn [rbind]; [|reflexivity].
  unfold select_list, select_list_n, unpack_list, unpack_list_n. destruct (fractional_size size) as [last|e]; [|reflexivity].
  change (fun (_ : list value) (i : Z) (b0 : buf) => let* s := sel a i b0 in selected s b0)
    with (fun (_ : list value) => (fun (i : Z) (b0 : buf) => let* s := sel a i b0 in selected s b0)). rewrite select_loop_simple. reflexivity.
Qed.
Print Assumptions C88_simple_list_selectors.

(** ** byte_size of a buffer_field replaces the type: without a selector the field cannot be unpacked at
    all.  A byte_size of 0 counts as none. *)
Theorem C88_size_without_selector_refuted : forall nm C size k args a b n, size <> 0 ->
  f_unpack (buffer_field nm C None (Some size) k) args a b n = Err KeyError.
Proof. intros nm C size k args a b n H. cbn [buffer_field f_unpack build size_keyword]. replace (size =? 0) with false by lia. reflexivity. Qed.
Print Assumptions C88_size_without_selector_refuted.
Theorem C88_no_size_without_selector : forall nm C size k args a b n, size = None \/ size = Some 0 ->
  f_unpack (buffer_field nm C None size k) args a b n = unpack_buffer nm C b /\ f_size (buffer_field nm C None size k) = None.
Proof. intros nm C size k args a b n [-> | ->]; split; reflexivity. Qed.
Print Assumptions C88_no_size_without_selector.

(** ** The strings of a list without a size of their own are padded to the size of the whole list each. *)
Theorem C88_strings_take_list_size : forall c strip j cnt sel k args n ss, 0 <= n -> is_byte c -> Forall is_ascii ss ->
  exists b rs, f_pack (list_field (EStr (ABytes [c]) strip j None) cnt sel k) args (VList (map VStr ss)) (Some (8 * n)) = Ok b
    /\ Forall2 (padded j c n) ss rs /\ buf_bits b = bits_of_bytes (List.concat rs) /\ n * zlen ss <= zlen (List.concat rs).
Proof.
  intros c strip j cnt sel k args n ss Hn Hc Hs. cbn [list_field f_pack build elem_pack].
  assert (G : exists rs, Forall2 (packs_as (pack_str (ABytes [c]) j (Some (8 * n)))) (map VStr ss) (map bits_of_bytes rs) /\ Forall2 (padded j c n) ss rs
            /\ n * zlen ss <= zlen (List.concat rs)).
  { induction Hs as [|s ss Hs _ (rs & IH1 & IH2 & IH3)]; [exists []; split; [constructor|]; split; [constructor|]; cbn [List.concat]; rewrite !zlen_nil; lia|].
    destruct (pack_str_sized j c n s Hn Hs) as (r & R1 & R2). exists (r :: rs). cbn [map]. split; [|split].
    - constructor; [|exact IH1]. exists (BArr r). split; [exact R1|]. split; [|reflexivity]. cbn [buf_ok]. eapply padded_ok; eauto using ascii_bytes.
    - constructor; assumption.
    - cbn [List.concat]. rewrite zlen_app, zlen_cons. assert (n <= zlen r). { destruct R2 as (? & ? & _ & L & _). lia. } lia. }
  destruct G as (rs & G1 & G2 & G3). destruct (pack_list_spec _ _ _ G1) as (b & B1 & _ & _ & B2). exists b, rs. rewrite concat_map_bits in B2. auto.
Qed.
Print Assumptions C88_strings_take_list_size.

(** ** A list of strings with a size of their own is read as one string, from the first of these sizes. *)
Theorem C88_sized_strings_read_first : forall c strip j cnt k n m a b core, 0 < n <= blen b -> blen b <= m -> buf_ok b -> is_view b ->
  field_text j strip c (firstn (Z.to_nat n) (bytes_of_bits (buf_bits b))) core -> is_ascii core ->
  f_unpack (list_field (EStr (ABytes [c]) (ABytes strip) j (Some (8 * n))) cnt None k) [RVal VNone] a b (Some (8 * m))
  = Ok (VList [VStr core], Some (8 * blen b)).
Proof.
  intros c strip j cnt k n m a b core Hn Hm K V T A. cbn [list_field f_unpack build count_of rbind elem_unpack].
  unfold unpack_list, unpack_list_n. rewrite fractional_ok by lia.
  assert (Hb : 0 < blength b) by (rewrite blen_cdiv in Hn; unfold cdiv8 in Hn; lia).
  assert (Hl : blength b <= 8 * blen b) by (rewrite blen_cdiv; unfold cdiv8; lia).
  unfold list_fuel. destruct (Z.to_nat (blength b)) as [|fuel] eqn:F; [lia|]. cbn [unpack_loop].
  replace (0 <? blength b) with true by lia. cbn [andb].
  destruct (slice_from b 0 (Some (8 * m)) K V ltac:(lia)) as (s & S1 & S2 & S3 & S4); [cbv beta iota; lia|].
  rewrite S1. cbn [rbind]. cbn [skipn Z.to_nat] in S4.
  assert (Eb : blen s = blen b) by (rewrite !blen_cdiv, <- !buf_bits_len, S4 by assumption; reflexivity).
  rewrite (unpack_str_sized j strip c n s core); [|lia|exact S2|exact S3|rewrite S4; exact T].
  destruct (ascii_ok core A) as (_ & ->). cbn [rbind]. rewrite Eb. destruct fuel; cbn [unpack_loop];
    replace (0 + 8 * blen b <? blength b) with false by lia; reflexivity.
Qed.
Print Assumptions C88_sized_strings_read_first.
Example C88_nonvacuous_strings : field_text JLeft [0] 32 (firstn 2 [65; 32; 66; 67]) [65] /\ is_ascii [65].
Proof.
  split; [|repeat constructor; lia]. exists [65; 32]. split.
  - exists [], []. repeat split; try constructor. intros x t E. destruct t as [|? [|? [|? ?]]]; inversion E; subst. intros [H|[]]; discriminate.
  - exists [], [32]. repeat split; repeat constructor. intros x t E. destruct t as [|? [|? ?]]; inversion E; subst. intros [H|[]]; discriminate.
Qed.

(** ** Non-vacuity: kind 1 is a pair followed by points. *)
Lemma pair_restores h x y : 0 <= x < 256 -> 0 <= y < 65536 ->
  exists bytes, zlen bytes = 3 /\ restores_prefix "Pair" (pair_class h) [("a", VInt x); ("b", VInt y)] bytes 24.
Proof.
  intros Hx Hy.
  destruct (fixed_restores (pair_fields h) pair_users (pair_class h) [(at_bytes 0 1, VInt x); (at_bytes 1 3, VInt y)] [("a", VInt x); ("b", VInt y)]) with (nm := "Pair")
    as (n & bytes & N & L & R).
  - class_ok.
  - apply make_class_by. destruct h; vm_compute; reflexivity.
  - assert (Sl : forall k a b, nth_error pair_users k = Some (UByteSlice (num a) (num b)) -> 0 <= a -> a <= b ->
                static (nodes (pair_class h)) (user k) (RRanges (at_bytes a b))).
    { intros k a b H H1 H2. eexists. constructor. unfold nodes. cbn [r_kind r_no user k_users pair_class]. rewrite H. cbn [user_prog ev num].
      rewrite slice_bytes by assumption. constructor. }
    assert (T : exists c, static (nodes (pair_class h)) (user 0) c /\ truthy c = true) by (exists (rbool true); split; [eexists; constructor; constructor|reflexivity]).
    constructor; [|constructor; [|constructor]]; unfold slot; cbn [fst snd].
    + split; [apply Sl; [reflexivity|lia|lia]|]. split; [apply Sl; [reflexivity|lia|lia]|]. split; [exact T|]. split; [exact T|]. split; [reflexivity|]. split; [reflexivity|].
      split; [now left|]. exists [], 8. split; [constructor|]. apply (st_int h BLittle false None _ I8); [intros (E & _); discriminate|]. unfold int_fits. cbn [width_in_bytes]. lia.
    + split; [apply Sl; [reflexivity|lia|lia]|]. split; [apply Sl; [reflexivity|lia|lia]|]. split; [exact T|]. split; [exact T|]. split; [reflexivity|]. split; [reflexivity|].
      split; [now left|]. exists [], 16. split; [constructor|]. apply (st_int h BLittle false None _ I16); [intros (E & _); discriminate|]. unfold int_fits. cbn [width_in_bytes]. lia.
  - apply (byte_places_apart [(0, 1); (1, 3)]); repeat constructor; cbn [fst snd]; lia.
  - repeat constructor; cbn; intuition discriminate.
  - repeat constructor.
  - reflexivity.
  - injection N as <-. exists bytes. split; [exact L|exact R].
Qed.
Definition two_records : list value := [VObj "Pair" [("a", VInt 7); ("b", VInt 513)]; VObj "Point" (point_at 258 (-2)); VObj "Point" (point_at 3 4)].
Example C88_nonvacuous : (exists bs, mixed (two_classes HostLittle) (by_kind_each (choose_two HostLittle)) (kind_is 1) None [] two_records bs)
  /\ fst (buffer_pack (records HostLittle (two_classes HostLittle) (choose_two HostLittle)) [("kind", VInt 1); ("body", VList two_records)])
     = Ok [1; 0; 0; 0; 7; 1; 2; 1; 2; 255; 254; 0; 3; 0; 4]
  /\ fst (buffer_unpack (records HostLittle (two_classes HostLittle) (choose_two HostLittle)) (BArr [0; 0; 0; 0; 7; 1; 2; 1; 2; 255; 254; 0; 3; 0; 4]) [])
     = Err InstructBufferError
  /\ (exists bytes, restores_exact "Pair" (pair_class HostLittle) [("a", VInt 7); ("b", VInt 513)] bytes (8 * zlen bytes)).
Proof.
  destruct (pair_restores HostLittle 7 513) as (b1 & L1 & R1); [lia|lia|]. destruct (point_restores HostLittle 258 (-2)) as (b2 & L2 & R2); [lia|lia|].
  destruct (point_restores HostLittle 3 4) as (b3 & L3 & R3); [lia|lia|].
  split; [|split; [vm_compute; reflexivity|split; [vm_compute; reflexivity|]]].
  - exists [b1; b2; b3].
    apply mixed_cons with (C := pair_class HostLittle); [reflexivity|rewrite L1; exact R1|intros ->; discriminate| |].
    { intros a b rest size Ha _. unfold by_kind_each. rewrite Ha. reflexivity. }
    apply mixed_cons with (C := point HostLittle); [reflexivity|rewrite L2; exact R2|intros ->; discriminate| |].
    { intros a b rest size Ha _. unfold by_kind_each. rewrite Ha. reflexivity. }
    apply mixed_cons with (C := point HostLittle); [reflexivity|rewrite L3; exact R3|intros ->; discriminate| |apply mixed_nil].
    intros a b rest size Ha _. unfold by_kind_each. rewrite Ha. reflexivity.
  - exists b1. rewrite L1. destruct R1 as (P & R1). split; [exact P|]. intros b Hb. apply (R1 b []). now rewrite app_nil_r.
Qed.

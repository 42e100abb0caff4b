(** Properties C41-C46 and C56-C58: packing and unpacking of field values. *)
From Verif Require Import Base BaseProofs IntCodec CodecSpec Stream Marshal FieldSpec Range IoBuffer IoSpec Serialize
  SerializeSpec SerializeFacts SerializeLists.
From Coq Require Import ZArith List Bool Lia.
Import ListNotations.
Open Scope Z_scope.

(** C41.  Integers of 1, 2, 4 and 8 bytes: written with the declared byte order, read back from the
    beginning of any view. *)
Theorem C41_int_field_roundtrip : forall h signed e s z,
  struct_width e s -> int_fits signed (8 * width_in_bytes s) z ->
  exists l, pack_int h signed e (Some (8 * width_in_bytes s)) (VInt z) = Ok (BArr l)
    /\ bytes_ok l /\ zlen l = width_in_bytes s
    /\ (forall i, 0 <= i < width_in_bytes s -> int_byte h e (width_in_bytes s) z i (nth (Z.to_nat i) l 0))
    /\ forall b rest, view_with b (bits_of_bytes l ++ rest) ->
         unpack_int h signed e (Some (8 * width_in_bytes s)) b = Ok (VInt z, Some (8 * width_in_bytes s)).
Proof. exact int_field_roundtrip. Qed.
Print Assumptions C41_int_field_roundtrip.

Theorem C41_int_field_rejects : forall h signed e s,
  (forall z, struct_width e s -> ~ int_fits signed (8 * width_in_bytes s) z ->
     pack_int h signed e (Some (8 * width_in_bytes s)) (VInt z) = Err StructError)
  /\ (forall v, (forall z, v <> VInt z) -> pack_int h signed e (Some (8 * width_in_bytes s)) v = Err StructError).
Proof. intros h signed e s. split; [exact (int_field_reject h signed e s)|exact (int_field_not_int h signed e s)]. Qed.
Print Assumptions C41_int_field_rejects.

Theorem C41_int_field_decodes : forall h signed e s b,
  struct_width e s -> buf_ok b -> is_view b ->
  (width_in_bytes s <= blen b ->
   exists z, unpack_int h signed e (Some (8 * width_in_bytes s)) b = Ok (VInt z, Some (8 * width_in_bytes s))
     /\ int_fits signed (8 * width_in_bytes s) z
     /\ pack_int h signed e (Some (8 * width_in_bytes s)) (VInt z)
        = Ok (BArr (firstn (Z.to_nat (width_in_bytes s)) (bytes_of_bits (buf_bits b)))))
  /\ (blen b < width_in_bytes s ->
      unpack_int h signed e (Some (8 * width_in_bytes s)) b = Err AssertionError).
Proof. intros h signed e s b W K V. split; [exact (int_field_decodes h signed e s b W K V)|exact (int_field_short h signed e s b)]. Qed.
Print Assumptions C41_int_field_decodes.

(** With 'unspecified' byte order a 4-byte field takes 8 bytes (on platforms where a C long has 8),
    so the 4 bytes of its own range can never be unpacked. *)
Theorem C41_unspecified_four_bytes : forall h signed,
  (forall z, int_fits signed 64 z ->
     exists l, pack_int h signed BUnspecified (Some 32) (VInt z) = Ok (BArr l) /\ zlen l = 8)
  /\ (forall b, blen b < 8 -> unpack_int h signed BUnspecified (Some 32) b = Err AssertionError).
Proof. intros h signed. split; [exact (int_unspecified_pack h signed)|exact (int_unspecified_unpack h signed)]. Qed.
Print Assumptions C41_unspecified_four_bytes.

Example C41_nonvacuous :
  struct_width BBig I32 /\ int_fits true 32 (-2)
  /\ pack_int HostLittle true BBig (Some 32) (VInt (-2)) = Ok (BArr [255; 255; 255; 254])
  /\ view_with (BView (BArr [15; 255; 255; 239; 240]) 4 40) (bits_of_bytes [240; 255; 255; 14] ++ [true; true; true; true])
  /\ unpack_int HostLittle true BLittle (Some 32) (BView (BArr [15; 255; 255; 239; 240]) 4 40)
     = Ok (VInt 251658224, Some 32)
  /\ ~ int_fits false 16 65536
  /\ pack_int HostLittle false BBig (Some 16) (VInt 65536) = Err StructError
  /\ pack_int HostLittle true BUnspecified (Some 32) (VInt 1) = Ok (BArr [1; 0; 0; 0; 0; 0; 0; 0]).
Proof.
  split; [intros [? ?]; discriminate|]. split; [cbn; lia|]. split; [reflexivity|].
  split; [|split; [reflexivity|split; [cbn; lia|split; reflexivity]]].
  split; [|split; [exact I|reflexivity]]. cbn. split; [|lia].
  repeat constructor; lia.
Qed.

(** C42.  Other widths: the value in binary, least significant bit first, on exactly [w] bits;
    neither the byte order nor the sign declared for the field matters. *)
Theorem C42_bit_field_roundtrip : forall h signed e w n,
  odd_width w -> 0 < w -> 0 <= n < 2 ^ w ->
  (exists b, pack_int h signed e (Some w) (VInt n) = Ok b /\ view_with b (int_bits n w))
  /\ forall v rest, view_with v (int_bits n w ++ rest) ->
       unpack_int h signed e (Some w) v = Ok (VInt n, Some w).
Proof.
  intros h signed e w n O Hw Hn. split; [exact (bit_field_pack_nonneg h signed e w n O Hw Hn)|].
  intros v rest Hv. rewrite (bit_field_roundtrip h signed e w n v rest) by (auto; lia).
  now rewrite Z.mod_small by lia.
Qed.
Print Assumptions C42_bit_field_roundtrip.

Theorem C42_bit_field_rejects : forall h signed e w,
  odd_width w -> 0 <= w ->
  (forall n, w = 0 \/ 2 ^ w <= Z.abs n -> pack_int h signed e (Some w) (VInt n) = Err ValueError)
  /\ (forall v, (forall n, v <> VInt n) -> pack_int h signed e (Some w) v = Err AttributeError).
Proof.
  intros h signed e w O Hw. split.
  - intros n Hn. exact (bit_field_reject h signed e w n O Hw Hn).
  - intros v Hv. exact (bit_field_not_int h signed e w v O Hw Hv).
Qed.
Print Assumptions C42_bit_field_rejects.

(** An integer field has no size if its position is open and it declares none: then nothing can be packed. *)
Theorem C42_no_size : forall h signed e v, pack_int h signed e None v = Err (match v with VInt _ => AssertionError | _ => AttributeError end).
Proof. intros h signed e v. now destruct v. Qed.
Print Assumptions C42_no_size.

(** A negative number is accepted if its absolute value fits; it is written modulo a power of 256
    (the number of bytes its absolute value takes) and reads back as a different number. *)
Theorem C42_bit_field_negative : forall h signed e w n,
  odd_width w -> 0 < w -> - 2 ^ w < n < 0 ->
  exists b, pack_int h signed e (Some w) (VInt n) = Ok b
    /\ view_with b (int_bits (n mod 2 ^ (8 * int_bytes n)) w)
    /\ exists z, unpack_int h signed e (Some w) b = Ok (VInt z, Some w) /\ 0 <= z /\ z <> n.
Proof.
  intros h signed e w n O Hw Hn. destruct (bit_field_pack h signed e w n O Hw) as (b & B1 & B2); [lia|].
  exists b. split; [auto|]. split; [auto|]. exists ((n mod 2 ^ (8 * int_bytes n)) mod 2 ^ w).
  pose proof (Z.mod_pos_bound (n mod 2 ^ (8 * int_bytes n)) (2 ^ w)) as M. rewrite (bit_field_roundtrip h signed e w (n mod 2 ^ (8 * int_bytes n)) b []).
  - split; [reflexivity|]. assert (0 < 2 ^ w) by (apply Z.pow_pos_nonneg; lia). lia.
  - auto.
  - lia.
  - now rewrite app_nil_r.
Qed.
Print Assumptions C42_bit_field_negative.

(** Every view decodes, to a non-negative number; a view with fewer than [w] bits is not noticed. *)
Theorem C42_bit_field_decodes : forall h signed e w b,
  odd_width w -> 0 <= w -> buf_ok b -> is_view b ->
  unpack_int h signed e (Some w) b = Ok (VInt (bits_value (firstn (Z.to_nat w) (buf_bits b))), Some w)
  /\ 0 <= bits_value (firstn (Z.to_nat w) (buf_bits b)) < 2 ^ w.
Proof.
  intros h signed e w b O Hw K V. split; [exact (bit_field_unpack h signed e w b O Hw K V)|].
  split; [apply IoProofs.bits_value_nonneg|]. eapply Z.lt_le_trans; [apply IoProofs.bits_value_lt|].
  apply Z.pow_le_mono_r; [lia|]. rewrite BaseProofs.zlen_firstn. lia.
Qed.
Print Assumptions C42_bit_field_decodes.

Example C42_nonvacuous :
  odd_width 12 /\ odd_width 24 /\ odd_width 3
  /\ pack_int HostLittle false BBig (Some 24) (VInt 258) = Ok (BView (BArr [2; 1; 0]) 0 24)
  /\ pack_int HostLittle false BBig (Some 12) (VInt 2748) = Ok (BView (BArr [188; 10]) 0 12)
  /\ unpack_int HostLittle true BBig (Some 12) (BView (BArr [192; 171; 0]) 4 20) = Ok (VInt 2748, Some 12)
  /\ pack_int HostLittle true BBig (Some 12) (VInt (-1)) = Ok (BView (BArr [255; 0]) 0 12)
  /\ unpack_int HostLittle true BBig (Some 12) (BView (BArr [255; 0]) 0 12) = Ok (VInt 255, Some 12)
  /\ pack_int HostLittle true BBig (Some 3) (VInt 8) = Err ValueError.
Proof. repeat split; try discriminate. Qed.

(** C43.  String fields. *)
Theorem C43_str_field_packs : forall j c n s,
  0 <= n -> is_ascii s ->
  exists r, pack_str (ABytes [c]) j (Some (8 * n)) (VStr s) = Ok (BArr r) /\ padded j c n s r.
Proof. exact pack_str_sized. Qed.
Print Assumptions C43_str_field_packs.

Theorem C43_str_field_roundtrip : forall j strip c n s,
  0 <= n -> zlen s <= n -> is_byte c -> is_ascii s -> no_strip j (c :: strip) s ->
  exists r, pack_str (ABytes [c]) j (Some (8 * n)) (VStr s) = Ok (BArr r) /\ bytes_ok r /\ zlen r = n /\ padded j c n s r
    /\ forall b rest, view_with b (bits_of_bytes r ++ rest) ->
         unpack_str (ABytes [c]) (ABytes strip) j (Some (8 * n)) b = Ok (VStr s, Some (8 * blen b)).
Proof. exact str_field_roundtrip. Qed.
Print Assumptions C43_str_field_roundtrip.

(** What is read in general: the first [n] bytes, trimmed of [strip], then of the padding. *)
Theorem C43_str_field_unpacks : forall j strip c n b core,
  0 <= n -> buf_ok b -> is_view b ->
  field_text j strip c (firstn (Z.to_nat n) (bytes_of_bits (buf_bits b))) core ->
  (n <= blen b -> is_ascii core ->
     unpack_str (ABytes [c]) (ABytes strip) j (Some (8 * n)) b = Ok (VStr core, Some (8 * blen b)))
  /\ (n <= blen b -> ~ is_ascii core ->
     unpack_str (ABytes [c]) (ABytes strip) j (Some (8 * n)) b = Err UnicodeError)
  /\ (blen b < n -> unpack_str (ABytes [c]) (ABytes strip) j (Some (8 * n)) b = Err ValueError).
Proof.
  intros j strip c n b core Hn K V T. split; [|split].
  - intros Hb Ha. rewrite (unpack_str_sized j strip c n b core) by (auto; lia). now rewrite (proj2 (ascii_ok core Ha)).
  - intros Hb Ha. rewrite (unpack_str_sized j strip c n b core) by (auto; lia). now rewrite (proj2 (ascii_bad core Ha)).
  - intros Hb. apply unpack_str_short; auto.
Qed.
Print Assumptions C43_str_field_unpacks.

(** Every field has a text. *)
Theorem C43_text_exists : forall j strip c l, exists core, field_text j strip c l core.
Proof. exact field_text_exists. Qed.
Print Assumptions C43_text_exists.

(** Padding or strip characters given as text (as in the defaults of the element type for lists of
    strings) never work for a field with a size. *)
Theorem C43_text_arguments : forall j n,
  0 <= n ->
  (forall c s, is_ascii s -> pack_str (AText [c]) j (Some (8 * n)) (VStr s) = Err TypeError)
  /\ (forall p strip b, strarg_len p = 1 -> n <= blen b -> buf_ok b -> is_view b ->
        unpack_str p (AText strip) j (Some (8 * n)) b = Err TypeError)
  /\ (forall p s, strarg_len p = 1 -> ~ is_ascii s -> pack_str p j (Some (8 * n)) (VStr s) = Err UnicodeError).
Proof.
  intros j n Hn. split; [|split].
  - intros c s Hs. exact (pack_str_text_padding j c n s Hn Hs).
  - intros p strip b Hp Hb K V. apply unpack_str_text_strip; auto.
  - intros p s Hp Hs. exact (pack_str_not_ascii p j n s Hp Hn Hs).
Qed.
Print Assumptions C43_text_arguments.

Example C43_nonvacuous :
  is_ascii [104; 105] /\ no_strip JCenter (32 :: [0]) [104; 105]
  /\ pack_str (ABytes [32]) JCenter (Some 40) (VStr [104; 105]) = Ok (BArr [32; 32; 104; 105; 32])
  /\ pack_str (ABytes [32]) JLeft (Some 8) (VStr [104; 105]) = Ok (BArr [104; 105])
  /\ unpack_str (ABytes [32]) (ABytes [0]) JLeft (Some 32) (BView (BArr [104; 105; 32; 0; 7]) 0 40) = Ok (VStr [104; 105], Some 40)
  /\ unpack_str (ABytes [32]) (ABytes [0]) JLeft (Some 16) (BView (BArr [104; 200]) 0 16) = Err UnicodeError
  /\ unpack_str (ABytes [32]) (ABytes [0]) JLeft (Some 24) (BView (BArr [104; 105]) 0 16) = Err ValueError.
Proof.
  split; [repeat constructor; lia|]. split.
  - split; intros _ x t E; [injection E as <- _|]; [intros [H|[H|[]]]; lia|].
    change [104; 105] with ([104] ++ [105]) in E. apply app_inj_tail in E as [_ <-]. intros [H|[H|[]]]; lia.
  - repeat split.
Qed.

(** C44.  Packing a list: the bits of the elements one after the other, or the exception of the
    first element that fails. *)
Theorem C44_pack_concatenates : forall f l bits,
  Forall2 (packs_as f) l bits ->
  (exists b, pack_list f (VList l) = Ok b /\ view_with b (List.concat bits))
  /\ forall v post e, f v = Err e -> pack_list f (VList (l ++ v :: post)) = Err e.
Proof.
  intros f l bits F. split; [exact (pack_list_spec f l bits F)|].
  intros v post e E. exact (pack_list_fails f l bits v post e F E).
Qed.
Print Assumptions C44_pack_concatenates.

(** Unpacking: elements read one behind the other until the end of the view or the count is
    reached, and never more than the count. *)
Theorem C44_unpack_reads_elements : forall f n last b v size,
  unpack_list f n last b = Ok (v, size) ->
  exists l offset, v = VList l /\ size = Some offset /\ elements f b last 0 0 l offset
    /\ (blength b <= offset \/ exists k, n = Some k /\ k <= zlen l)
    /\ (forall k, n = Some k -> zlen l <= Z.max 0 k).
Proof. exact unpack_list_result. Qed.
Print Assumptions C44_unpack_reads_elements.

(** Whatever the element type, if it recognises what was written for each element, the list comes
    back: without a count from exactly these bits, with a count from any view that starts with them. *)
Theorem C44_list_roundtrip : forall unpack l bits,
  Forall2 (unpacks_from unpack) l bits -> Forall (fun x => 0 < zlen x) bits ->
  (forall b, view_with b (List.concat bits) ->
     unpack_list unpack None None b = Ok (VList l, Some (zlen (List.concat bits))))
  /\ (forall b rest, view_with b (List.concat bits ++ rest) ->
     unpack_list unpack (Some (zlen l)) None b = Ok (VList l, Some (zlen (List.concat bits)))).
Proof.
  intros unpack l bits F P. split.
  - intros b Hb. now apply (unpack_list_all unpack b None l bits).
  - intros b rest Hb. now apply (unpack_list_count unpack b None l bits rest).
Qed.
Print Assumptions C44_list_roundtrip.

(** Lists of integers of any width. *)
Theorem C44_int_list_roundtrip : forall h signed e w zs,
  (exists s, w = 8 * width_in_bytes s /\ struct_width e s /\ Forall (int_fits signed w) zs)
  \/ (odd_width w /\ 0 < w /\ Forall (fun z => 0 <= z < 2 ^ w) zs) ->
  exists b bits, pack_list (int_marshal_pack h w signed e) (VList (map VInt zs)) = Ok b /\ view_with b bits
    /\ zlen bits = w * zlen zs
    /\ (forall v, view_with v bits ->
          unpack_list (int_marshal_unpack h w signed e) None None v = Ok (VList (map VInt zs), Some (w * zlen zs)))
    /\ (forall v rest, view_with v (bits ++ rest) ->
          unpack_list (int_marshal_unpack h w signed e) (Some (zlen zs)) None v = Ok (VList (map VInt zs), Some (w * zlen zs))).
Proof. exact int_list_roundtrip. Qed.
Print Assumptions C44_int_list_roundtrip.

Example C44_nonvacuous :
  (odd_width 12 /\ 0 < 12 /\ Forall (fun z => 0 <= z < 2 ^ 12) [1; 2748; 4095])
  /\ pack_list (int_marshal_pack HostLittle 12 false BBig) (VList (map VInt [1; 2748; 4095]))
     = Ok (BView (BArr [1; 192; 171; 255; 15]) 0 36)
  /\ unpack_list (int_marshal_unpack HostLittle 12 false BBig) None None (BView (BArr [1; 192; 171; 255; 15]) 0 36)
     = Ok (VList (map VInt [1; 2748; 4095]), Some 36)
  /\ unpack_list (int_marshal_unpack HostLittle 12 false BBig) (Some 2) None (BView (BArr [1; 192; 171; 255; 15]) 0 40)
     = Ok (VList (map VInt [1; 2748]), Some 24)
  /\ pack_list (int_marshal_pack HostLittle 16 true BBig) (VList [VInt 1; VInt 40000; VNone]) = Err StructError.
Proof. split; [|repeat split]. split; [repeat split; lia|]. split; [lia|]. repeat constructor; lia. Qed.

(** C45.  With a count, or if every element uses at least one bit, unpacking a list returns. *)
Theorem C45_list_terminates : forall f n last b,
  consumes f \/ n <> None -> exists fuel r, unpack_list_n f n last fuel b = Some r.
Proof. exact unpack_list_ends. Qed.
Print Assumptions C45_list_terminates.

(** More rounds do not change the result. *)
Theorem C45_rounds : forall f n last fuel b r, unpack_list_n f n last fuel b = Some r ->
  forall more, unpack_list_n f n last (fuel + more) b = Some r.
Proof. exact unpack_list_more. Qed.
Print Assumptions C45_rounds.

(** Once an element uses nothing before the end of the view, unpacking without a count never
    returns: whatever the number of rounds, the loop is still running. *)
Theorem C45_list_stuck : forall f b l offset s,
  elements f b None 0 0 l offset ->
  (forall k, (k <= List.length l)%nat -> forall o, elements f b None 0 0 (firstn k l) o -> o < blength b) ->
  buf_slice b (Some offset) None = Ok s -> (forall j, exists v, f j s = Ok (v, Some 0)) ->
  forall fuel, unpack_list_n f None None fuel b = None.
Proof.
  intros f b l offset s El Hlt Es Hs fuel. unfold unpack_list_n. cbn [fractional_size].
  now rewrite (elements_stuck f b None 0 0 l offset s El Hlt Es Hs fuel []).
Qed.
Print Assumptions C45_list_stuck.

(** The model's [Diverges] says exactly this. *)
Theorem C45_diverges : forall f last b,
  ignores_index f -> never_back f -> (forall i s e, f i s = Err e -> e <> Diverges) -> buf_ok b -> is_view b ->
  (unpack_list f None last b = Err Diverges <-> forall fuel, unpack_list_n f None last fuel b = None).
Proof. exact unpack_list_diverges. Qed.
Print Assumptions C45_diverges.

(** An element type with a selector that answers None for a byte it does not know. *)
Definition example_selector (_ : Z) (b : buf) : res (value * option Z) :=
  let* p := unpack_int HostLittle false BLittle (Some 8) b in
  match p with (VInt 1, _) => Ok (VInt 1, Some 8) | _ => Ok (VNone, Some 0) end.
Example C45_nonvacuous :
  consumes (int_marshal_unpack HostLittle 12 false BBig)
  /\ (let b := BView (BArr [1; 9; 1]) 0 24 in
      elements example_selector b None 0 0 [VInt 1] 8
      /\ exists s, buf_slice b (Some 8) None = Ok s /\ forall j, exists v, example_selector j s = Ok (v, Some 0))
  /\ unpack_list example_selector None None (BView (BArr [1; 9; 1]) 0 24) = Err Diverges
  /\ unpack_list example_selector (Some 2) None (BView (BArr [1; 9; 1]) 0 24) = Ok (VList [VInt 1; VNone], Some 8).
Proof.
  split.
  - intros i b v len. unfold int_marshal_unpack, unpack_int. cbn. unfold unpack_bit_int.
    destruct (buf_slice b (Some 0) (Some 12)) as [s|]; cbn [rbind]; [|discriminate].
    destruct (rmap_list (buf_nth s) (rev (py_range (blen s)))); cbn [rbind]; [|discriminate]. intros H. injection H as _ <-. lia.
  - split; [|split; reflexivity]. split.
    + econstructor; [reflexivity|reflexivity|]. constructor.
    + eexists. split; [reflexivity|]. intros j. eexists. reflexivity.
Qed.

(** C46.  An 8-byte float can be packed but never unpacked. *)
Theorem C46_double_never_unpacks : forall h e,
  (forall b, unpack_float h e (Some 64) b = Err AssertionError)
  /\ forall p, 0 <= p < 2 ^ 64 ->
       exists l, pack_float h e (Some 64) (VFloat p) = Ok (BArr l) /\ bytes_ok l /\ zlen l = 8.
Proof. intros h e. split; [exact (double_field_unpack h e)|exact (double_field_pack h e)]. Qed.
Print Assumptions C46_double_never_unpacks.

(** Four bytes (or no size) round-trip; other sizes are refused. *)
Theorem C46_single_roundtrip : forall h e p,
  (exists q, 0 <= q < 2 ^ 32 /\ p = single_to_double q) ->
  exists l, pack_float h e (Some 32) (VFloat p) = Ok (BArr l) /\ pack_float h e None (VFloat p) = Ok (BArr l)
    /\ bytes_ok l /\ zlen l = 4
    /\ forall b rest, view_with b (bits_of_bytes l ++ rest) ->
         unpack_float h e (Some 32) b = Ok (VFloat p, Some 32) /\ unpack_float h e None b = Ok (VFloat p, Some 32).
Proof. exact single_field_roundtrip. Qed.
Print Assumptions C46_single_roundtrip.

Theorem C46_other_sizes : forall h e w b v, w <> 32 -> w <> 64 ->
  pack_float h e (Some w) v = Err AssertionError /\ unpack_float h e (Some w) b = Err AssertionError.
Proof. exact float_field_sizes. Qed.
Print Assumptions C46_other_sizes.

Example C46_nonvacuous :
  pack_float HostLittle BBig (Some 32) (VFloat (single_to_double 1069547520)) = Ok (BArr [63; 192; 0; 0])
  /\ unpack_float HostLittle BBig None (BView (BArr [63; 192; 0; 0]) 0 32) = Ok (VFloat (single_to_double 1069547520), Some 32)
  /\ pack_float HostLittle BBig (Some 64) (VFloat (1023 * 2 ^ 52)) = Ok (BArr [63; 240; 0; 0; 0; 0; 0; 0]).
Proof. repeat split; reflexivity. Qed.

(** C56.  Byte-array fields: bytes come back from a view that has exactly these bits; a range that
    starts at a byte boundary but ends inside a byte gets the rest of that byte from its neighbour. *)
Theorem C56_bytearray_roundtrip : forall l, bytes_ok l ->
  pack_bytearray (VBytes l) = Ok (BArr l)
  /\ forall b, view_with b (bits_of_bytes l) -> unpack_bytearray b = Ok (VBytes l, Some (8 * zlen l)).
Proof. intros l B. split; [unfold pack_bytearray; now rewrite (proj2 (bytes_okb_spec l) B)|]. intros b Hb. exact (unpack_bytearray_bytes b l Hb B). Qed.
Print Assumptions C56_bytearray_roundtrip.

Theorem C56_bytearray_unpacks : forall b, buf_ok b -> is_view b ->
  exists l, unpack_bytearray b = Ok (VBytes l, Some (8 * blen b)) /\ bytes_ok l /\ zlen l = blen b
    /\ firstn (Z.to_nat (blength b)) (bits_of_bytes l) = buf_bits b.
Proof. exact unpack_bytearray_spec. Qed.
Print Assumptions C56_bytearray_unpacks.

Theorem C56_bytearray_leaks_neighbour : forall l a e, bytes_ok l -> 0 <= a -> 8 * a <= e <= 8 * zlen l ->
  unpack_bytearray (BView (BArr l) (8 * a) e) = Ok (VBytes (py_slice l a (cdiv8 e)), Some (8 * (cdiv8 e - a))).
Proof. exact unpack_bytearray_neighbour. Qed.
Print Assumptions C56_bytearray_leaks_neighbour.

(** An int assigned to a byte-array field is taken as a number of zero bytes. *)
Theorem C56_bytearray_of_int : forall n,
  (0 <= n -> pack_bytearray (VInt n) = Ok (BArr (repeat 0 (Z.to_nat n))))
  /\ (n < 0 -> pack_bytearray (VInt n) = Err ValueError).
Proof.
  intros n. unfold pack_bytearray. split; intros H; destruct (n <? 0) eqn:E; auto; exfalso;
    [apply Z.ltb_lt in E|apply Z.ltb_ge in E]; lia.
Qed.
Print Assumptions C56_bytearray_of_int.

(** A list of ints is taken as the bytes; the first element that is no byte decides what is raised. *)
Theorem C56_bytearray_of_list :
  (forall l, bytes_ok l -> pack_bytearray (VList (map VInt l)) = Ok (BArr l))
  /\ (forall l n r, bytes_ok l -> n < 0 \/ 255 < n -> pack_bytearray (VList (map VInt l ++ VInt n :: r)) = Err ValueError)
  /\ (forall l v r, bytes_ok l -> (forall n, v <> VInt n) -> pack_bytearray (VList (map VInt l ++ v :: r)) = Err TypeError).
Proof. exact pack_bytearray_list. Qed.
Print Assumptions C56_bytearray_of_list.

Example C56_nonvacuous_list : pack_bytearray (VList [VInt 1; VInt 255]) = Ok (BArr [1; 255])
  /\ pack_bytearray (VList [VInt 1; VInt 256; VNone]) = Err ValueError /\ pack_bytearray (VList [VInt 1; VNone; VInt 256]) = Err TypeError.
Proof. repeat split. Qed.
Example C56_nonvacuous :
  view_with (BView (BArr [240; 111; 22]) 4 20) (bits_of_bytes [255; 102])
  /\ unpack_bytearray (BView (BArr [240; 111; 22]) 4 20) = Ok (VBytes [255; 102], Some 16)
  /\ unpack_bytearray (BView (BArr [240; 111; 22]) 8 12) = Ok (VBytes [111], Some 8)
  /\ buf_bits (BView (BArr [240; 111; 22]) 8 12) = [true; true; true; true].
Proof.
  split; [|repeat split]. split; [|split; [exact I|reflexivity]]. cbn. split; [repeat constructor; lia|lia].
Qed.

(** C57.  A list of strings: whatever the type's size, padding and count, at most one string is
    ever unpacked, because a string claims the whole rest of the view. *)
Theorem C57_string_list_at_most_one : forall p strip j size n b v sz,
  buf_ok b -> is_view b ->
  unpack_list (fun _ s => unpack_str p strip j size s) n None b = Ok (v, sz) ->
  exists l, v = VList l /\ zlen l <= 1.
Proof. exact str_list_one. Qed.
Print Assumptions C57_string_list_at_most_one.

(** That one string is what the string type reads from the whole view. *)
Theorem C57_string_list_element : forall p strip j bits n b v sz, buf_ok b -> is_view b -> unpack_list (str_type_unpack p strip j bits) n None b = Ok (v, sz) ->
  v = VList [] /\ (blength b <= 0 \/ exists k, n = Some k /\ k <= 0)
  \/ exists s x len, view_with s (buf_bits b) /\ unpack_str p strip j (Some bits) s = Ok (x, len) /\ v = VList [x].
Proof. exact str_list_first. Qed.
Print Assumptions C57_string_list_element.

Example C57_nonvacuous :
  pack_list (str_type_pack (ABytes [32]) JLeft 16) (VList [VStr [97]; VStr [98]])
    = Ok (BView (BArr [97; 32; 98; 32]) 0 32)
  /\ unpack_list (str_type_unpack (ABytes [32]) (ABytes [0]) JLeft 16) None None (BView (BArr [97; 32; 98; 32]) 0 32)
    = Ok (VList [VStr [97]], Some 32).
Proof. split; reflexivity. Qed.

(** C58.  A list of bit fields without a count takes everything up to the end of its view: the
    number of elements is the length of the view divided by the width, rounded up, and the last one
    may be made from fewer bits. *)
Theorem C58_bit_list_to_end : forall h signed e w b,
  odd_width w -> 0 < w -> buf_ok b -> is_view b ->
  let m := Z.to_nat ((blength b + (w - 1)) / w) in
  unpack_list (int_marshal_unpack h w signed e) None None b
  = Ok (VList (map (fun i => VInt (bits_value (cut w (buf_bits b) i))) (seq 0 m)), Some (w * Z.of_nat m)).
Proof. exact bit_list_to_end. Qed.
Print Assumptions C58_bit_list_to_end.

Example C58_nonvacuous :
  odd_width 3
  /\ pack_list (int_marshal_pack HostLittle 3 false BBig) (VList [VInt 5; VInt 6]) = Ok (BView (BArr [53]) 0 6)
  /\ unpack_list (int_marshal_unpack HostLittle 3 false BBig) None None (BView (BArr [53]) 0 8)
     = Ok (VList [VInt 5; VInt 6; VInt 0], Some 9).
Proof. repeat split; try discriminate. Qed.

(** Property C89: fields one behind the other whose ends are found only when they are unpacked. *)
From Verif Require Import Base BaseProofs IntCodec CodecSpec Stream Marshal FieldSpec Range RangeSpec IoBuffer IoSpec IoProofs IoFacts Serialize SerializeSpec
  SerializeFacts SerializeLists RefEngine RefSpec BufferModel BufferSpec SeeSpec WideSpec BufferMacros BufferCodecSpec BufferDep BufferNested BufferClass BufferExamples
  SelectModel SelectSpec SelectProofs WideProofs WideExamples.
From Coq Require Import ZArith List Bool String Lia.
Import ListNotations.
Open Scope string_scope.
Open Scope list_scope.
Open Scope Z_scope.

(** ** C89.  Packing: if positions, arguments and values follow from each other without a circle, and no
    two fields share a bit, then the bytes hold every field at its place, with the bits of its packed value. *)
Theorem C89_packs : forall C lay o, cls_ok C -> class_packs C lay o -> apart (places lay) -> within_size C lay -> NoDup (map f_name (k_fields C)) ->
  exists bytes o', buffer_pack C o = (Ok bytes, o') /\ bytes_ok bytes
    /\ (exists m, largest_stop (List.concat (places lay)) m
        /\ zlen bytes = (Z.max m (match k_size C with Some k => k | None => 0 end) + 7) / 8)
    /\ same_but_assigned C o o'
    /\ (forall i f e, nth_error (k_fields C) i = Some f -> nth_error lay i = Some (Some e) -> Marshal.lookup o' (f_name f) = Some (e_value e))
    /\ forall i e tail, nth_error lay i = Some (Some e) -> flat_map (range_bits (bits_of_bytes bytes ++ tail)) (e_place e) = packed_bits e.
Proof. exact layout_packs. Qed.
Print Assumptions C89_packs.

(** Unpacking any input, packed or not: if the input determines the layout, that is what unpack stores.
    Fields may overlap. *)
Theorem C89_reads : forall C lay extra n b o2, cls_ok C -> buf_ok b -> class_reads C lay extra (buf_bits b) -> Forall neat (places lay) -> read_size C lay n ->
  NoDup (map f_name (k_fields C)) -> has_attrs extra o2 ->
  exists o', buffer_unpack C b o2 = (Ok n, o') /\ holds_layout o' (k_fields C) lay /\ only_fields_changed C o2 o'.
Proof. exact layout_reads. Qed.
Print Assumptions C89_reads.

(** Both: the object is packed as [lay] and read as [back]. *)
Theorem C89_roundtrip : forall C lay back o extra wide n, cls_ok C -> class_layout_within C lay back o extra wide -> apart (places lay) ->
  within_size C lay -> read_size C back n -> NoDup (map f_name (k_fields C)) ->
  exists bytes o', buffer_pack C o = (Ok bytes, o') /\ bytes_ok bytes
    /\ (exists m, largest_stop (List.concat (places lay)) m
        /\ zlen bytes = (Z.max m (match k_size C with Some k => k | None => 0 end) + 7) / 8)
    /\ same_but_assigned C o o'
    /\ (forall i f e, nth_error (k_fields C) i = Some f -> nth_error lay i = Some (Some e) -> Marshal.lookup o' (f_name f) = Some (e_value e))
    /\ forall b tail o2, buf_ok b -> buf_bits b = bits_of_bytes bytes ++ tail ->
       input_fits back wide (8 * ((zlen (buf_bits b) + 7) / 8)) -> has_attrs extra o2 ->
       exists o'', buffer_unpack C b o2 = (Ok n, o'') /\ holds_layout o'' (k_fields C) back /\ only_fields_changed C o2 o''.
Proof. exact layout_roundtrip_within. Qed.
Print Assumptions C89_roundtrip.

(** Objects of such classes inside other objects. *)
Theorem C89_nested : forall C lay back o wide n nm, cls_ok C -> class_layout_within C lay back o [] wide -> apart (places lay) ->
  within_size C lay -> read_size C back n -> NoDup (map f_name (k_fields C)) -> instance C o -> holds_layout o (k_fields C) back ->
  exists bytes m, largest_stop (List.concat (places lay)) m /\ zlen bytes = (Z.max m (match k_size C with Some k => k | None => 0 end) + 7) / 8
    /\ object_packs C o bytes
    /\ ((forall x, 8 * zlen bytes <= x -> input_fits back wide x) -> restores_prefix nm C o bytes n)
    /\ (input_fits back wide (8 * zlen bytes) -> restores_exact nm C o bytes n).
Proof. exact layout_restores_within. Qed.
Print Assumptions C89_nested.

(** ** The fields that leave the end of the input to others: from an input that goes on behind what was
    packed, each reads its value and says how much it used. *)
(** An object whose class does so. *)
Theorem C89_object : forall nm C k a bytes n ok, restores_prefix nm C a bytes n ->
  reads_start (buffer_field nm C None None k) [] ok (bits_of_bytes bytes) (VObj nm a) (Some n).
Proof. exact object_starts. Qed.
Print Assumptions C89_object.
(** A list with the number of its elements... *)
Theorem C89_counted_list : forall t count k l bits ok, Forall2 (fun v x => forall size, unpacks_from (elem_unpack t size) v x) l bits ->
  Forall (fun x => 0 < zlen x) bits ->
  reads_start (list_field t count None k) [RVal (VInt (zlen l))] ok (concat_bits bits) (VList l) (Some (zlen (concat_bits bits))).
Proof. exact list_starts. Qed.
Print Assumptions C89_counted_list.
(** ... also if a selector reads every element, as far as the element needs... *)
Theorem C89_chosen_list : forall t count sel k l bits (ok : attrs -> Prop),
  (forall a i v x, ok a -> nth_error l i = Some v -> nth_error bits i = Some x ->
     forall s rest, view_with s (x ++ rest) -> (let* y := sel a (Z.of_nat i) s in selected y s) = Ok (v, Some (zlen x))) ->
  List.length l = List.length bits -> Forall (fun x => 0 < zlen x) bits ->
  reads_start (list_field t count (Some sel) k) [RVal (VInt (zlen l))] ok (concat_bits bits) (VList l) (Some (zlen (concat_bits bits))).
Proof. exact chosen_list_starts. Qed.
Print Assumptions C89_chosen_list.
(** ... and if the elements are of different classes. *)
Theorem C89_mixed_list : forall tbl count sel k l bs ok, mixed tbl sel ok (Some (zlen l)) [] l bs ->
  reads_start (selector_list tbl count sel k) [RVal (VInt (zlen l))] ok (bits_of_bytes (List.concat bs)) (VList l) (Some (8 * zlen (List.concat bs))).
Proof. exact mixed_list_starts. Qed.
Print Assumptions C89_mixed_list.

(** ** The configuration page of tests/test_buffer_ses.py, for all numbers of enclosures, of headers and of
    texts, and whatever follows the page.  The texts are packed from str and come back as bytes. *)
Theorem C89_page : forall h ds ks pc gc o,
  Forall enclosure_valid ds -> Forall kind_valid ks -> ds <> [] -> zlen ds <= 128 -> fold_right Z.add 0 (map en_headers ds) = zlen ks ->
  small pc -> - 2 ^ 31 <= gc < 2 ^ 31 -> ses_size ds ks < 4 + 2 ^ 15 ->
  Marshal.lookup o "page_code" = Some (VInt pc) -> Marshal.lookup o "secondary_subenclosures_num" = Some (VInt (zlen ds - 1)) ->
  Marshal.lookup o "generation_code" = Some (VInt gc) -> Marshal.lookup o "enclosure_descriptor_list" = Some (enclosures ds) ->
  Marshal.lookup o "type_descriptor_header_list" = Some (headers ks) -> Marshal.lookup o "type_descriptor_text_list" = Some (VList (map (fun x => VStr (ki_text x)) ks)) ->
  exists bytes o', buffer_pack (ses_page h) o = (Ok bytes, o') /\ bytes_ok bytes /\ zlen bytes = ses_size ds ks
    /\ Marshal.lookup o' "page_length" = Some (VInt (zlen bytes - 4))
    /\ forall rest o2, bytes_ok rest -> exists o'', buffer_unpack (ses_page h) (BArr (bytes ++ rest)) o2 = (Ok (8 * zlen bytes), o'')
       /\ Marshal.lookup o'' "page_code" = Some (VInt pc) /\ Marshal.lookup o'' "secondary_subenclosures_num" = Some (VInt (zlen ds - 1))
       /\ Marshal.lookup o'' "page_length" = Some (VInt (zlen bytes - 4)) /\ Marshal.lookup o'' "generation_code" = Some (VInt gc)
       /\ Marshal.lookup o'' "enclosure_descriptor_list" = Some (enclosures ds) /\ Marshal.lookup o'' "type_descriptor_header_list" = Some (headers ks)
       /\ Marshal.lookup o'' "type_descriptor_text_list" = Some (VList (map (fun x => VBytes (ki_text x)) ks)).
Proof. exact ses_page_roundtrip. Qed.
Print Assumptions C89_page.
(** The classes of the page are what the class statements make. *)
Theorem C89_page_made : forall h, make_class (header_fields h) header_users = Ok (header h)
  /\ make_class (enclosure_fields h) enclosure_users = Ok (enclosure h)
  /\ make_class (page_fields h "EnclosureDescriptor" (enclosure h) "TypeDescriptorHeader" (header h)) page_users = Ok (ses_page h).
Proof. intros h. split; [apply header_made|]. split; [apply enclosure_made|]. apply page_made. Qed.
Print Assumptions C89_page_made.

(** Two fields that share bytes, one of them open: unpacking any input of two bytes or more. *)
Theorem C89_overlapping : forall l o, bytes_ok l -> 2 <= zlen l ->
  exists o', buffer_unpack overlap (BArr l) o = (Ok (8 * zlen l), o')
    /\ Marshal.lookup o' "head" = Some (VBytes (firstn 2 l)) /\ Marshal.lookup o' "whole" = Some (VBytes l).
Proof. exact overlap_unpack. Qed.
Print Assumptions C89_overlapping.

(** A page with one enclosure, two types of elements and their texts, followed by two other bytes. *)
Definition C89_enclosure : enclosure_data := mkEnclosure 1 2 3 2 [1; 2; 3; 4; 5; 6; 7; 8] [73; 66; 77] [80] [49; 46; 48] [9; 9; 9].
Definition C89_kinds : list element_kind := [mkKind 1 2 0 [68; 105; 115; 107]; mkKind 2 1 0 [70; 97; 110]].
Definition C89_obj : attrs :=
  [("enclosure_descriptor_list", enclosures [C89_enclosure]); ("generation_code", VInt 258); ("page_code", VInt 1); ("page_length", VNone);
   ("secondary_subenclosures_num", VInt 0); ("type_descriptor_header_list", headers C89_kinds);
   ("type_descriptor_text_list", VList (map (fun x => VStr (ki_text x)) C89_kinds))].
Example C89_nonvacuous :
  exists bytes o', buffer_pack (ses_page HostLittle) C89_obj = (Ok bytes, o') /\ zlen bytes = 66
    /\ Marshal.lookup o' "page_length" = Some (VInt 62)
    /\ exists o'', buffer_unpack (ses_page HostLittle) (BArr (bytes ++ [170; 187])) [] = (Ok 528, o'')
       /\ Marshal.lookup o'' "type_descriptor_text_list" = Some (VList [VBytes [68; 105; 115; 107]; VBytes [70; 97; 110]]).
Proof.
  assert (V : enclosure_valid C89_enclosure).
  { assert (T : forall l, forallb (fun c => (0 <=? c) && (c <? 128)) l = true -> is_ascii l).
    { intros l H. apply Forall_forall. intros c Hc. pose proof (proj1 (forallb_forall _ _) H c Hc). lia. }
    assert (B : forall l, forallb (fun c => (0 <=? c) && (c <? 256)) l = true -> bytes_ok l).
    { intros l H. apply Forall_forall. intros c Hc. pose proof (proj1 (forallb_forall _ _) H c Hc). unfold is_byte. lia. }
    unfold enclosure_valid, small, fits_text, C89_enclosure, zlen. cbn [en_processes en_relative en_sub en_headers en_id en_vendor en_product en_revision en_more List.length].
    split; [lia|]. split; [lia|]. split; [lia|]. split; [lia|]. split; [now apply B|]. split; [reflexivity|].
    assert (N : forall l, ~ In (last l 1) [32; 0] -> no_strip JLeft [32; 0] l).
    { intros l H. split; [discriminate|]. intros _ x t ->. rewrite last_last in H. exact H. }
    repeat (split; [first [lia | now apply T | now apply B | apply N; cbn; intuition discriminate | split; [lia|split; [now apply T|apply N; cbn; intuition discriminate]]]|]). lia. }
  assert (K : Forall kind_valid C89_kinds).
  { unfold C89_kinds. repeat apply Forall_cons; try apply Forall_nil; unfold kind_valid, small, is_ascii, zlen; cbn [ki_type ki_possible ki_sub ki_text List.length];
      (split; [lia|]); (split; [lia|]); (split; [lia|]); (split; [repeat constructor; lia|]); (split; [discriminate|lia]). }
  assert (L : zlen [C89_enclosure] = 1) by reflexivity. assert (S : ses_size [C89_enclosure] C89_kinds = 66) by (vm_compute; reflexivity).
  destruct (C89_page HostLittle [C89_enclosure] C89_kinds 1 258 C89_obj) as (bytes & o' & P1 & _ & P3 & P4 & P5);
    [now constructor|exact K|discriminate|rewrite L; lia|reflexivity|unfold small; lia|lia|rewrite S; lia|reflexivity..|].
  rewrite S in P3. exists bytes, o'. split; [exact P1|]. split; [exact P3|]. rewrite P3 in *. split; [exact P4|].
  destruct (P5 [170; 187] []) as (o'' & U1 & _ & _ & _ & _ & _ & _ & U7); [repeat constructor; unfold is_byte; lia|]. exists o''. split; [exact U1|exact U7].
Qed.
(** A layout that [C89_reads] accepts. *)
Example C89_nonvacuous_reads : class_reads overlap (overlap_layout [1; 2; 3]) [] (buf_bits (BArr [1; 2; 3])) /\ cls_ok overlap.
Proof. split; [apply overlap_reads; [repeat constructor; unfold is_byte; lia|unfold zlen; cbn; lia]|class_ok]. Qed.

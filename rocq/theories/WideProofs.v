(** Proofs about fields that leave the end of the input to others: the premises of [read_back_as] for the
    fields of buffer/macros.py, and objects of classes with such fields inside other objects. *)
From Verif Require Import Base BaseProofs IntCodec CodecSpec Stream Marshal FieldFacts Range RangeSpec RangeFacts RangeArith IoBuffer IoSpec IoProofs IoFacts Serialize SerializeSpec
  SerializeFacts SerializeLists RefEngine RefSpec BufferModel BufferSpec SeeSpec WideSpec BufferDep BufferMacros BufferCodecSpec BufferCodecs BufferTrip BufferNested SelectModel SelectSpec SelectProofs.
From Coq Require Import ZArith List Bool String Lia ZifyBool ZifyNat.
Import ListNotations.
Open Scope list_scope.
Open Scope Z_scope.
Ltac Zify.zify_post_hook ::= Z.div_mod_to_equations.

(** ** What the unpacker of a field in a layout gets *)
Definition reads_within (f : field) (uargs : list rv) (ok : attrs -> Prop) (wide : bool) (e e' : entry) : Prop :=
  forall n from rest a b', reads_at e' n from -> (from = e_place e' -> rest = []) -> (wide = false -> from = e_place e') ->
    ok a -> buf_ok b' -> is_view b' -> buf_bits b' = packed_bits e ++ rest -> zlen (buf_bits b') <= zlen (all_positions from) ->
    f_unpack f uargs a b' (given_size f from) = Ok (e_value e', e_used e').

Lemma back_as C back urank extra sees wide i f e e' uargs : e_place e' = e_place e ->
  sgiven C (known back (read_before urank (urank i))) (sight C back extra sees) (f_where_unpack f) (RRanges (e_read e')) ->
  (exists c, given C (known back not_total) (f_unpack_if f) c /\ truthy c = true) -> f_after f = None ->
  Forall (fun j => exists e', nth_error back j = Some (Some e')) (f_unpack_after f) ->
  Forall2 (sgiven_arg C (known back (read_before urank (urank i))) (sight C back extra sees)) (f_unpack_args f) uargs ->
  reads_within f uargs (sight C back extra sees) wide e e' -> read_back_as C back urank extra sees wide i f e e'.
Proof. intros. repeat (split; [assumption|]). exists uargs. now split. Qed.

Lemma packed_whole e : zlen (buf_bits (e_buf e)) mod 8 = 0 -> zlen (all_positions (e_place e)) = zlen (buf_bits (e_buf e)) ->
  packed_bits e = buf_bits (e_buf e).
Proof. intros H1 H2. unfold packed_bits. rewrite H2. apply firstn_pad. reflexivity. Qed.
Lemma wide_reads f uargs (ok : attrs -> Prop) wide e e' : f_size f = None -> neat (e_place e') ->
  zlen (buf_bits (e_buf e)) mod 8 = 0 -> zlen (all_positions (e_place e)) = zlen (buf_bits (e_buf e)) ->
  reads_start f uargs ok (buf_bits (e_buf e)) (e_value e') (e_used e') -> reads_within f uargs ok wide e e'.
Proof.
  intros Hf Hn H8 Hl R n from rest a b' Hfrom _ _ Ha Kb Vb Eb Hle. rewrite (packed_whole e H8 Hl) in Eb.
  apply (R a b' rest); [exact Ha|split; [exact Kb|split; [exact Vb|exact Eb]]|].
  unfold given_size. rewrite Hf. rewrite (proj1 (list_byte_length_spec _) (reads_at_closed _ _ _ Hfrom Hn)). exact Hle.
Qed.
(** A field with a place of its own. *)
Lemma narrow_reads f pargs uargs (ok : attrs -> Prop) psize e e' : e_place e' = e_place e -> e_value e' = e_value e ->
  codec_restores_if ok f pargs uargs psize (given_size f (e_place e)) (zlen (all_positions (e_place e))) (e_value e) (e_buf e) (e_used e') ->
  reads_within f uargs ok false e e'.
Proof.
  intros Hp Hv (_ & _ & _ & U) n from rest a b' _ Hr Hw Ha Kb Vb Eb _. rewrite (Hw eq_refl) in *. rewrite (Hr eq_refl), app_nil_r in Eb.
  rewrite Hp, Hv. apply (U a b'); auto.
Qed.

Lemma codec_if (ok : attrs -> Prop) f pargs uargs psize usize len v b used : codec_restores f pargs uargs psize usize len v b used ->
  codec_restores_if ok f pargs uargs psize usize len v b used.
Proof. intros (E1 & E2 & E3 & E4). repeat (split; [assumption|]). intros a b' _. apply E4. Qed.

(** ** The fields *)
Lemma object_starts nm C k a bytes n (ok : attrs -> Prop) : restores_prefix nm C a bytes n ->
  reads_start (buffer_field nm C None None k) [] ok (bits_of_bytes bytes) (VObj nm a) (Some n).
Proof. intros (_ & R) a0 b rest size _ V _. cbn [buffer_field f_unpack build size_keyword]. exact (R b rest V). Qed.

(** A list with a number of elements; what an element is may depend on its index. *)
Lemma indexed_list_reads f b last l bits rest :
  (forall k v x, nth_error l k = Some v -> nth_error bits k = Some x -> forall s rest', view_with s (x ++ rest') -> f (Z.of_nat k) s = Ok (v, Some (zlen x))) ->
  List.length l = List.length bits -> Forall (fun x => 0 < zlen x) bits -> view_with b (concat_bits bits ++ rest) ->
  match last with Some w => blength b <= w | None => True end ->
  unpack_list f (Some (zlen l)) last b = Ok (VList l, Some (zlen (concat_bits bits))).
Proof.
  intros F L P (K & V & E) Hw. unfold unpack_list, unpack_list_n.
  assert (Fs : fractional_size last = Ok last).
  { destruct last as [w|]; [|reflexivity]. apply fractional_ok. pose proof (blength_nonneg b K). lia. }
  rewrite Fs, <- select_loop_simple.
  pose proof (select_loop_reads (fun _ => f) b last K V Hw l bits rest [] (Some (zlen l)) (list_fuel (Some (zlen l)) b) []) as G.
  change (zlen (@nil bool)) with 0 in G. change (zlen (@nil value)) with 0 in G. rewrite G; auto.
  unfold list_fuel, zlen. lia.
Qed.
(** Elements packed as [bits], without a byte_size. *)
Lemma list_packs t count sel k l bits : Forall2 (packs_as (elem_pack t None)) l bits ->
  exists b, f_pack (list_field t count sel k) [] (VList l) None = Ok b /\ view_with b (concat_bits bits).
Proof. intros F. cbn [list_field f_pack build]. now apply pack_list_spec. Qed.
Lemma list_starts t count k l bits (ok : attrs -> Prop) : Forall2 (fun v x => forall size, unpacks_from (elem_unpack t size) v x) l bits ->
  Forall (fun x => 0 < zlen x) bits ->
  reads_start (list_field t count None k) [RVal (VInt (zlen l))] ok (concat_bits bits) (VList l) (Some (zlen (concat_bits bits))).
Proof.
  intros F P a b rest size _ V Hs. cbn [list_field f_unpack build count_of rbind]. apply (unpack_list_count _ b size l bits rest V); [|exact P|].
  - clear - F. induction F; constructor; auto.
  - destruct size; [|exact Logic.I]. destruct V as (K & _). rewrite <- buf_bits_len by exact K. exact Hs.
Qed.
Lemma chosen_list_starts t count sel k l bits (ok : attrs -> Prop) :
  (forall a i v x, ok a -> nth_error l i = Some v -> nth_error bits i = Some x ->
     forall s rest, view_with s (x ++ rest) -> (let* y := sel a (Z.of_nat i) s in selected y s) = Ok (v, Some (zlen x))) ->
  List.length l = List.length bits -> Forall (fun x => 0 < zlen x) bits ->
  reads_start (list_field t count (Some sel) k) [RVal (VInt (zlen l))] ok (concat_bits bits) (VList l) (Some (zlen (concat_bits bits))).
Proof.
  intros F L P a b rest size Ha V Hs. cbn [list_field f_unpack build count_of rbind]. apply (indexed_list_reads _ b size l bits rest); auto.
  - intros i v x Hv Hx s r Hr. exact (F a i v x Ha Hv Hx s r Hr).
  - destruct size; [|exact Logic.I]. destruct V as (K & _). rewrite <- buf_bits_len by exact K. exact Hs.
Qed.
(** Objects of the classes that a selector picks. *)
Lemma mixed_list_starts tbl count sel k l bs (ok : attrs -> Prop) : mixed tbl sel ok (Some (zlen l)) [] l bs ->
  reads_start (selector_list tbl count sel k) [RVal (VInt (zlen l))] ok (bits_of_bytes (List.concat bs)) (VList l) (Some (8 * zlen (List.concat bs))).
Proof.
  intros M a b rest size Ha (K & V & E) Hs. destruct (mixed_packs _ _ _ _ _ _ _ M) as (_ & M2).
  assert (L : zlen (bits_of_bytes (List.concat bs)) = 8 * zlen (List.concat bs)) by apply bits_of_bytes_length.
  cbn [selector_list f_unpack build count_of rbind]. unfold select_list, select_list_n.
  assert (Hw : match size with Some w => blength b <= w | None => True end) by (destruct size; [rewrite <- buf_bits_len by exact K; exact Hs|exact Logic.I]).
  assert (Fs : fractional_size size = Ok size).
  { destruct size as [w|]; [|reflexivity]. apply fractional_ok. pose proof (blength_nonneg b K). lia. }
  rewrite Fs.
  pose proof (select_loop_reads (fun acc i b => let* s := sel a acc i (Some (zlen l)) b size in selected s b) b size K V Hw l (map bits_of_bytes bs) rest []
                (Some (zlen l)) (list_fuel (Some (zlen l)) b) []) as G.
  change (zlen (@nil bool)) with 0 in G. change (zlen (@nil value)) with 0 in G. rewrite G.
  - rewrite concat_map_bits, L. reflexivity.
  - intros i v x Hv Hx s r Hr. apply (mixed_reads tbl sel ok (Some (zlen l)) [] l bs a _ Ha M i v x Hv Hx s r Hr).
  - rewrite map_length. eapply mixed_length; eauto.
  - exact M2.
  - rewrite concat_map_bits. exact E.
  - cbn. lia.
  - unfold list_fuel, zlen. lia.
Qed.

(** ** Objects with such fields inside other objects *)
Lemma unpack_new C nm b o n : NoDup (map f_name (k_fields C)) -> instance C o ->
  (exists lay, holds_layout o (k_fields C) lay
     /\ forall o2, exists o'', buffer_unpack C b o2 = (Ok n, o'') /\ holds_layout o'' (k_fields C) lay /\ only_fields_changed C o2 o'') ->
  unpack_buffer nm C b = Ok (VObj nm o, Some n).
Proof.
  intros Hn Hi (lay & Hh & U). unfold unpack_buffer. rewrite (init_defaults C Hn). cbn [rbind].
  destruct (U (map (fun f => (f_name f, f_default f)) (k_fields C))) as (o'' & U1 & U2 & U3 & U4). rewrite U1. do 3 f_equal.
  assert (K : map fst (map (fun f => (f_name f, f_default f)) (k_fields C)) = map f_name (k_fields C)) by (rewrite map_map; reflexivity).
  rewrite K in U4. specialize (U4 (incl_refl _)). symmetry. apply attrs_eq.
  - rewrite Hi. exact Hn.
  - now rewrite U4, Hi.
  - intros k Hk. rewrite Hi in Hk. eapply holds_lookup; eauto.
Qed.
Theorem layout_restores_within C lay back o wide n nm : cls_ok C -> class_layout_within C lay back o [] wide -> apart (places lay) ->
  within_size C lay -> read_size C back n -> NoDup (map f_name (k_fields C)) -> instance C o -> holds_layout o (k_fields C) back ->
  exists bytes m, largest_stop (List.concat (places lay)) m /\ zlen bytes = (Z.max m (match k_size C with Some k => k | None => 0 end) + 7) / 8
    /\ object_packs C o bytes
    /\ ((forall x, 8 * zlen bytes <= x -> input_fits back wide x) -> restores_prefix nm C o bytes n)
    /\ (input_fits back wide (8 * zlen bytes) -> restores_exact nm C o bytes n).
Proof.
  intros Hok Hlay Hap Hs Hr Hn Hi Hh.
  destruct (layout_roundtrip_within C lay back o [] wide n Hok Hlay Hap Hs Hr Hn) as (bytes & o' & P1 & P2 & (m & P3 & P4) & _ & _ & P5).
  exists bytes, m. split; [exact P3|]. split; [exact P4|]. assert (Op : object_packs C o bytes) by (split; [exact P2|now rewrite P1]).
  split; [exact Op|]. split; intros Hf; split; try exact Op.
  - intros b rest (B1 & B2 & B3). apply unpack_new; auto. exists back. split; [exact Hh|]. intros o2. apply (P5 b rest o2 B1 B3); [|intros x y []].
    apply Hf. rewrite B3, zlen_app, bits_of_bytes_length. pose proof (zlen_nonneg rest). lia.
  - intros b (B1 & B2 & B3). apply unpack_new; auto. exists back. split; [exact Hh|]. intros o2. apply (P5 b [] o2 B1); [now rewrite app_nil_r| |intros x y []].
    rewrite B3, bits_of_bytes_length. replace (8 * ((8 * zlen bytes + 7) / 8)) with (8 * zlen bytes) by lia. exact Hf.
Qed.

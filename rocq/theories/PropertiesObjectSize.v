(** Property C90: calc_byte_size() of an object. *)
From Verif Require Import Base IntCodec Stream Marshal Range RangeSpec IoBuffer IoSpec Serialize SerializeSpec CodecSpec FieldSpec RefEngine BufferModel BufferSpec SeeSpec WideSpec
  BufferMacros BufferCodecSpec BufferCodecs BufferDep BufferTrip BufferExamples ObjectSize ObjectSizeSpec ObjectSizeFacts.
From Coq Require Import ZArith List Bool String Lia.
Import ListNotations.
Open Scope string_scope.
Open Scope list_scope.
Open Scope Z_scope.

(** ** C90.  An object of a class with a byte_size has this size, whatever it holds; nothing is evaluated. *)
Theorem C90_known_size : forall C own n o, k_size C = Some n -> calc_byte_size C own o = (Ok n, o).
Proof. exact size_known. Qed.
Print Assumptions C90_known_size.

(** Otherwise the size is the end of the last field that the class of the object adds itself: the first
    [own] fields.  Positions may depend on other fields, also inherited ones, and on values packed, so
    attributes with a set_before_pack may be assigned, but no others.  Fields may overlap. *)
Theorem C90_size : forall C own lay o m, cls_ok C -> (own <= List.length (k_fields C))%nat -> own_references C own -> k_size C = None ->
  NoDup (map f_name (k_fields C)) -> class_places C lay o -> Forall neat (places lay) -> Forall present (firstn own lay) ->
  largest_stop (List.concat (places (firstn own lay))) m ->
  exists o', calc_byte_size C own o = (Ok m, o') /\ same_but_assigned C o o'.
Proof. exact size_given. Qed.
Print Assumptions C90_size.

(** For a class without inherited fields, and an object of which all fields are packed, this is the length of
    what pack returns (in bits, before it is rounded up to bytes). *)
Theorem C90_is_packed_length : forall C lay o, cls_ok C -> k_size C = None -> NoDup (map f_name (k_fields C)) -> class_packs C lay o ->
  apart (places lay) -> Forall present lay ->
  exists bytes o1 o2 m, buffer_pack C o = (Ok bytes, o1) /\ calc_byte_size C (List.length (k_fields C)) o = (Ok m, o2)
    /\ largest_stop (List.concat (places lay)) m /\ zlen bytes = (m + 7) / 8
    /\ same_but_assigned C o o2.
Proof. exact size_packed. Qed.
Print Assumptions C90_is_packed_length.

(** In general it is not: conditions are not looked at, and inherited fields do not count.  [lay] says what is
    packed, [lay'] where the fields would be put if all conditions were true. *)
Theorem C90_packed_length_refuted : forall C own lay lay' o m, cls_ok C -> (own <= List.length (k_fields C))%nat -> own_references C own -> k_size C = None ->
  NoDup (map f_name (k_fields C)) -> class_packs C lay o -> apart (places lay) ->
  class_places C lay' o -> Forall neat (places lay') -> Forall present (firstn own lay') ->
  largest_stop (List.concat (places (firstn own lay'))) m ->
  exists bytes o1 o2 n, buffer_pack C o = (Ok bytes, o1) /\ largest_stop (List.concat (places lay)) n /\ zlen bytes = (n + 7) / 8
    /\ calc_byte_size C own o = (Ok m, o2).
Proof. exact sizes. Qed.
Print Assumptions C90_packed_length_refuted.

(** ** Cases *)
(** The packets of [BufferExamples], with data of any length. *)
Example C90_nonvacuous : forall h l crc o, zlen l < 65536 -> bytes_ok l -> 0 <= crc < 65536 -> Marshal.lookup o "data" = Some (VBytes l) ->
  Marshal.lookup o "crc" = Some (VInt crc) ->
  exists bytes o1 o2, buffer_pack (packet h) o = (Ok bytes, o1) /\ zlen bytes = 8 + zlen l /\ calc_byte_size (packet h) 4 o = (Ok (8 * (8 + zlen l)), o2).
Proof.
  intros h l crc o Hl Hb Hc Ho1 Ho2. destruct (packet_laid_out h l crc o Hl Hb Hc Ho1 Ho2) as (b1 & b2 & b3 & b4 & K).
  assert (L : 0 <= zlen l) by (unfold zlen; lia).
  destruct (C90_is_packed_length (packet h) (packet_layout b1 b2 b3 b4 l crc) o (packet_ok h) eq_refl) as (bytes & o1 & o2 & m & P1 & P2 & P3 & P4 & _).
  - repeat constructor; cbn; intuition discriminate.
  - now apply layout_class_packs.
  - rewrite packet_places. apply byte_places_apart; repeat constructor; cbn [fst snd]; lia.
  - repeat (apply Forall_cons; [eexists; reflexivity|]). apply Forall_nil.
  - pose proof (largest_stop_unique _ _ _ P3 (packet_largest b1 b2 b3 b4 l crc)). subst m. exists bytes, o1, o2. split; [exact P1|]. split; [|exact P2].
    rewrite P4. Z.div_mod_to_equations. lia.
Qed.

(** class Note(Buffer):
        flag = uint_field(where=bytes_ref[0:1])
        text = bytearray_field(where=bytes_ref[1:], pack_if=flag, unpack_if=flag)
    Without the flag one byte is packed; the size still counts the text. *)
Definition note_fields (h : host) : list field :=
  [int_field h BNative false None (packet_kw "flag" 1 1 None);
   bytearray_field (mkKw "text" VNone (user 2) (user 2) (mkRid KField 0) (mkRid KField 0) None None [])].
Definition note_users : list uref := [UConst (rbool true); UByteSlice (num 0) (num 1); UByteSlice (num 1) (AConst (RVal VNone))].
Definition note (h : host) : cls := mkCls (note_fields h) note_users None.
Example C90_nonvacuous_condition : forall h, make_class (note_fields h) note_users = Ok (note h)
  /\ fst (buffer_pack (note h) [("flag", VInt 0); ("text", VBytes [1; 2; 3])]) = Ok [0]
  /\ fst (calc_byte_size (note h) 2 [("flag", VInt 0); ("text", VBytes [1; 2; 3])]) = Ok 32.
Proof. intros h. split; [apply make_class_by; destruct h; vm_compute; reflexivity|]. destruct h; split; vm_compute; reflexivity. Qed.

(** class Base(Buffer):
        end = be_uint_field(where=bytes_ref[6:8])
        n = uint_field(where=bytes_ref[0:1])
    class Mark(Base):
        mark = uint_field(where=bytes_ref[Base.n:Base.n + 1])
    Eight bytes are packed; the size is the end of the mark. *)
Definition mark_own (h : host) : list field := [int_field h BNative false None (packet_kw "mark" 3 3 None)].
Definition mark_inherited (h : host) : list field :=
  [int_field h BBig false None (packet_kw "end" 2 2 None); int_field h BNative false None (packet_kw "n" 1 1 None)].
Definition mark_users : list uref :=
  [UConst (rbool true); UByteSlice (num 0) (num 1); UByteSlice (num 6) (num 8);
   UByteSlice (ARef (mkRid KField 2)) (ARef (user 4)); UNum OpAdd (ARef (mkRid KField 2)) (num 1)].
Definition mark (h : host) : cls := mkCls (mark_own h ++ mark_inherited h) mark_users None.
Example C90_nonvacuous_subclass : forall h, make_subclass (mark_own h) (mark_inherited h) mark_users = Ok (mark h) /\ own_references (mark h) 1
  /\ fst (buffer_pack (mark h) [("mark", VInt 7); ("end", VInt 513); ("n", VInt 3)]) = Ok [3; 0; 0; 7; 0; 0; 2; 1]
  /\ fst (calc_byte_size (mark h) 1 [("mark", VInt 7); ("end", VInt 513); ("n", VInt 3)]) = Ok 32.
Proof.
  intros h. split.
  { unfold make_subclass. assert (E : static_size (mkCls (mark_own h ++ mark_inherited h) mark_users None)
      (firstn (List.length (mark_own h)) (numbered (mkCls (mark_own h ++ mark_inherited h) mark_users None))) new_ctx [] = Ok None) by (destruct h; vm_compute; reflexivity).
    rewrite E. reflexivity. }
  split; [right; repeat constructor|]. destruct h; split; vm_compute; reflexivity.
Qed.
(** The hypotheses of [C90_size] for this class: every object with a mark that lies before the end. *)
Definition mark_layout (b0 b1 b2 : buf) (n e m : Z) : layout :=
  [Some (mkEntry (at_bytes n (n + 1)) (at_bytes n (n + 1)) (at_bytes n (n + 1)) (VInt m) b0 (Some 8));
   Some (mkEntry (at_bytes 6 8) (at_bytes 6 8) (at_bytes 6 8) (VInt e) b1 (Some 16));
   Some (mkEntry (at_bytes 0 1) (at_bytes 0 1) (at_bytes 0 1) (VInt n) b2 (Some 8))].
Lemma mark_packs h n e m o : 0 <= n < 256 -> 0 <= e < 65536 -> 0 <= m < 256 -> Marshal.lookup o "n" = Some (VInt n) ->
  Marshal.lookup o "end" = Some (VInt e) -> Marshal.lookup o "mark" = Some (VInt m) -> exists b0 b1 b2, class_packs (mark h) (mark_layout b0 b1 b2 n e m) o.
Proof.
  intros Hn He Hm On Oe Om.
  destruct (stores_packed (int_field h BNative false None (packet_kw "mark" 3 3 None)) (Some 8) [] 8 (VInt m) 8 []) as (b0 & B0 & _).
  { apply (st_int h BNative false None _ I8); [intros (E & _); discriminate|]. unfold int_fits. cbn [width_in_bytes]. lia. }
  destruct (stores_packed (int_field h BBig false None (packet_kw "end" 2 2 None)) (Some 16) [] 16 (VInt e) 16 []) as (b1 & B1 & _).
  { apply (st_int h BBig false None _ I16); [intros (E & _); discriminate|]. unfold int_fits. cbn [width_in_bytes]. lia. }
  destruct (stores_packed (int_field h BNative false None (packet_kw "n" 1 1 None)) (Some 8) [] 8 (VInt n) 8 []) as (b2 & B2 & _).
  { apply (st_int h BNative false None _ I8); [intros (E & _); discriminate|]. unfold int_fits. cbn [width_in_bytes]. lia. }
  exists b0, b1, b2. split; [reflexivity|]. exists (fun _ => 0%nat), (fun i => match i with 0%nat => 1%nat | _ => 0%nat end).
  assert (T : forall know, exists c, given (mark h) know (user 0) c /\ truthy c = true).
  { intros know. exists (rbool true). split; [now apply given_const|reflexivity]. }
  assert (W : forall know : lfact -> Prop, know (FValue 2 (VInt n)) -> given (mark h) know (user 3) (RRanges (at_bytes n (n + 1)))).
  { intros know K. eapply given_slice; [reflexivity|exact (given_field _ _ _ _ K)| |].
    - eapply given_num; [reflexivity|exact (given_field _ _ _ _ K)|reflexivity|apply num_op_add].
    - apply slice_bytes; lia. }
  intros [|[|[|i]]] f Hf; cbn [k_fields mark mark_own mark_inherited app nth_error] in Hf; [| | |destruct i; discriminate]; injection Hf as <-; cbn [mark_layout nth_error];
    unfold packed_as; cbn [e_write e_read e_place e_value e_buf e_used].
  - split; [apply W; split; [cbn [below]; lia|]; eexists; split; reflexivity|]. split; [now left|]. split; [congruence|]. split; [apply T|]. split; [exact Om|].
    exists []. split; [constructor|]. unfold given_size. cbn [f_size int_field build size_keyword]. rewrite length_bytes, positions_bytes by lia.
    replace (8 * (n + 1 - n)) with 8 by lia. destruct B0 as (P1 & P2 & P3 & _). auto.
  - split; [eapply given_slice; [reflexivity|reflexivity|reflexivity|reflexivity]|]. split; [now left|]. split; [congruence|]. split; [apply T|]. split; [exact Oe|].
    exists []. split; [constructor|]. destruct B1 as (P1 & P2 & P3 & _). auto.
  - split; [eapply given_slice; [reflexivity|reflexivity|reflexivity|reflexivity]|]. split; [now left|]. split; [congruence|]. split; [apply T|]. split; [exact On|].
    exists []. split; [constructor|]. destruct B2 as (P1 & P2 & P3 & _). auto.
Qed.
Example C90_nonvacuous_mark : forall h n e m o, 1 <= n < 6 -> 0 <= e < 65536 -> 0 <= m < 256 -> Marshal.lookup o "n" = Some (VInt n) ->
  Marshal.lookup o "end" = Some (VInt e) -> Marshal.lookup o "mark" = Some (VInt m) ->
  exists bytes o1 o2, buffer_pack (mark h) o = (Ok bytes, o1) /\ zlen bytes = 8 /\ calc_byte_size (mark h) 1 o = (Ok (8 * (n + 1)), o2).
Proof.
  intros h n e m o Hn He Hm On Oe Om. destruct (mark_packs h n e m o) as (b0 & b1 & b2 & P); [lia|exact He|exact Hm|exact On|exact Oe|exact Om|].
  assert (Pl : places (mark_layout b0 b1 b2 n e m) = byte_places [(n, n + 1); (6, 8); (0, 1)]) by reflexivity.
  assert (A : apart (places (mark_layout b0 b1 b2 n e m))) by (rewrite Pl; apply byte_places_apart; repeat constructor; cbn [fst snd]; lia).
  destruct (C90_packed_length_refuted (mark h) 1 (mark_layout b0 b1 b2 n e m) (mark_layout b0 b1 b2 n e m) o (8 * (n + 1))) as (bytes & o1 & o2 & k & Q1 & Q2 & Q3 & Q4).
  - class_ok.
  - cbn. lia.
  - right. repeat constructor.
  - reflexivity.
  - repeat constructor; cbn; intuition discriminate.
  - exact P.
  - exact A.
  - now apply packs_places.
  - now apply apart_neat.
  - cbn [firstn mark_layout]. constructor; [eexists; reflexivity|constructor].
  - apply (byte_places_largest [(n, n + 1)]); [|eexists; now left|lia]. intros p [<-|[]]. cbn [snd]. lia.
  - assert (L : largest_stop (List.concat (places (mark_layout b0 b1 b2 n e m))) 64).
    { rewrite Pl. change 64 with (8 * 8). apply byte_places_largest; [|eexists; right; left; reflexivity|lia]. intros p [<-|[<-|[<-|[]]]]; cbn [snd]; lia. }
    exists bytes, o1, o2. split; [exact Q1|]. split; [|exact Q4]. rewrite Q3, (largest_stop_unique _ _ _ Q2 L). reflexivity.
Qed.

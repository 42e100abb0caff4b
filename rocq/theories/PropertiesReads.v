(** Properties C79 and C80: what unpack() reads, and input that is too short. *)
From Verif Require Import Base BaseProofs IntCodec CodecSpec Stream Marshal FieldSpec Range RangeSpec IoBuffer IoSpec Serialize SerializeSpec
  RefEngine RefSpec BufferModel BufferSpec BufferMacros BufferReadSpec BufferCodecSpec BufferReads BufferExamples PropertiesHooks.
From Coq Require Import ZArith List Bool String Lia.
Import ListNotations.
Open Scope string_scope.
Open Scope list_scope.
Open Scope Z_scope.

(** ** C79.  unpack() gives the unpacker of each field the bits of the input at the field's position,
    and stores what it returns. *)
Theorem C79_unpack_reads_fields : forall C b o n o', plain C -> NoDup (map f_name (k_fields C)) -> buf_ok b -> buffer_unpack C b o = (Ok n, o') ->
  exists input m s m' s', input_buffer b = Ok input /\ unpacking C (numbered C) [] (mkBst o (Some input)) m s
    /\ eval rid_eqb (nodes C) (mkRid KTotal 0) m s (Ok (rnum n)) m' s' /\ o' = s_obj s'
    /\ forall i f, nth_error (k_fields C) i = Some f -> read_from b o' m' i f.
Proof. exact unpack_reads. Qed.
Print Assumptions C79_unpack_reads_fields.

(** A field that is always there, at a fixed place; nothing is assumed about the other fields. *)
Theorem C79_fixed_place : forall C b o n o' i f r, plain C -> NoDup (map f_name (k_fields C)) -> buf_ok b ->
  nth_error (k_fields C) i = Some f -> always_at C f r -> buffer_unpack C b o = (Ok n, o') ->
  exists given args a x used, view_with given (bits_at b r) /\ f_unpack f args a given (given_size f r) = Ok (x, used)
    /\ Marshal.lookup o' (f_name f) = Some x.
Proof. exact unpack_reads_at. Qed.
Print Assumptions C79_fixed_place.

(** An integer of 1, 2, 4 or 8 bytes at bytes_ref[a:a + w]: the attribute is the number whose bytes
    are in the input from byte [a] on. *)
Theorem C79_int_attribute : forall C l o n o' i h e signed s k a, plain C -> NoDup (map f_name (k_fields C)) -> bytes_ok l -> struct_width e s -> 0 <= a ->
  nth_error (k_fields C) i = Some (int_field h e signed None k) ->
  always_at C (int_field h e signed None k) (byte_place a (a + width_in_bytes s)) -> buffer_unpack C (BArr l) o = (Ok n, o') ->
  a + width_in_bytes s <= zlen l
  /\ exists z, Marshal.lookup o' (kw_name k) = Some (VInt z) /\ int_fits signed (8 * width_in_bytes s) z
     /\ forall j, 0 <= j < width_in_bytes s -> int_byte h e (width_in_bytes s) z j (nth (Z.to_nat (a + j)) l 0).
Proof. exact unpack_int_attr. Qed.
Print Assumptions C79_int_attribute.

(** An integer of any other width: the value of the bits at its place. *)
Theorem C79_bits_attribute : forall C b o n o' i h e signed k r, plain C -> NoDup (map f_name (k_fields C)) -> buf_ok b -> odd_width (zlen (all_positions r)) ->
  nth_error (k_fields C) i = Some (int_field h e signed None k) -> always_at C (int_field h e signed None k) r ->
  buffer_unpack C b o = (Ok n, o') -> Marshal.lookup o' (kw_name k) = Some (VInt (bits_value (bits_at b r))).
Proof. exact unpack_bits_attr. Qed.
Print Assumptions C79_bits_attribute.

(** A byte array at bytes_ref[a:b]. *)
Theorem C79_bytes_attribute : forall C l o n o' i k a b, plain C -> NoDup (map f_name (k_fields C)) -> bytes_ok l -> 0 <= a -> a <= b ->
  nth_error (k_fields C) i = Some (bytearray_field k) -> always_at C (bytearray_field k) (byte_place a b) ->
  buffer_unpack C (BArr l) o = (Ok n, o') -> Marshal.lookup o' (kw_name k) = Some (VBytes (py_slice l a b)).
Proof. exact unpack_bytes_attr. Qed.
Print Assumptions C79_bytes_attribute.

(** If all places are fixed and every unpacker accepts what is there, unpack() succeeds, returns the
    size of the class, and sets these attributes and no others.  Fields may share bytes. *)
Theorem C79_fixed_layout_decodes : forall C b o n lay, cls_ok C -> NoDup (map f_name (k_fields C)) -> buf_ok b -> k_size C = Some n ->
  Forall2 (fun f x => always_at C f (fst x) /\ decodes C b f (fst x) (snd x)) (k_fields C) lay ->
  exists o', buffer_unpack C b o = (Ok n, o') /\ has_values o' (k_fields C) lay /\ only_fields_changed C o o'.
Proof. exact unpack_fixed. Qed.
Print Assumptions C79_fixed_layout_decodes.

(** class Record(Buffer):
        number = be_uint_field(where=bytes_ref[0:4])
        flags = uint_field(where=bytes_ref[4].bits[1:4])
        data = bytearray_field(where=bytes_ref[4:10]) *)
Definition record_number (h : host) : field := int_field h BBig false None (packet_kw "number" 1 1 None).
Definition record_flags (h : host) : field := int_field h BLittle false None (packet_kw "flags" 3 3 None).
Definition record_data : field := bytearray_field (packet_kw "data" 4 4 None).
Definition record_users : list uref :=
  [UConst (rbool true); UByteSlice (num 0) (num 4); UByteNum (num 4); UBitSlice (user 2) (num 1) (num 4); UByteSlice (num 4) (num 10)].
Definition record_class (h : host) : cls := mkCls [record_number h; record_flags h; record_data] record_users (Some 80).
Lemma record_class_made h : make_class [record_number h; record_flags h; record_data] record_users = Ok (record_class h).
Proof. apply make_class_by. destruct h; vm_compute; reflexivity. Qed.
Lemma record_true h n : exists c, static (nodes (mkCls n record_users h)) (user 0) c /\ truthy c = true.
Proof. exists (rbool true). split; [|reflexivity]. eapply pure_ev; [reflexivity|]. constructor. Qed.
Lemma record_places n h :
  static (nodes (mkCls n record_users h)) (user 1) (RRanges (byte_place 0 4))
  /\ static (nodes (mkCls n record_users h)) (user 3) (RRanges [mkR 33 (Some 36)])
  /\ static (nodes (mkCls n record_users h)) (user 4) (RRanges (byte_place 4 10)).
Proof.
  split; [|split].
  - eapply pure_ev; [reflexivity|]. apply pure_ret_by. reflexivity.
  - destruct (pure_ev (mkCls n record_users h) 2 (UByteNum (num 4)) (RRanges (byte_place 4 5)) 0 eq_refl) as (k & H2); [apply pure_ret_by; reflexivity|].
    eapply pure_ev; [reflexivity|]. cbn [user_prog]. econstructor; [exact H2|]. apply pure_ret_by. reflexivity.
  - eapply pure_ev; [reflexivity|]. apply pure_ret_by. reflexivity.
Qed.
Lemma bit_place_proper a b : 0 <= a -> a <= b -> proper_place [mkR a (Some b)].
Proof.
  intros H1 H2. split; [|split].
  - constructor; [|constructor]. split; [split; cbn [r_start r_stop]; lia|discriminate].
  - constructor; constructor.
  - left. eexists. reflexivity.
Qed.
Lemma record_always n h f k a b : f_where_unpack f = user k -> f_unpack_if f = user 0 -> f_after f = None ->
  static (nodes (mkCls n record_users h)) (user k) (RRanges [mkR a (Some b)]) -> 0 <= a -> a <= b -> always_at (mkCls n record_users h) f [mkR a (Some b)].
Proof.
  intros H1 H2 H3 H4 Ha Hb. split; [now rewrite H1|]. split; [now apply bit_place_proper|]. split; [|exact H3]. rewrite H2. apply record_true.
Qed.

Example C79_nonvacuous : forall h,
  make_class [record_number h; record_flags h; record_data] record_users = Ok (record_class h)
  /\ plain (record_class h) /\ NoDup (map f_name (k_fields (record_class h)))
  /\ always_at (record_class h) (record_number h) (byte_place 0 (0 + width_in_bytes I32))
  /\ always_at (record_class h) (record_flags h) [mkR 33 (Some 36)] /\ odd_width (zlen (all_positions [mkR 33 (Some 36)]))
  /\ always_at (record_class h) record_data (byte_place 4 10)
  /\ match buffer_unpack (record_class h) (BArr [1; 2; 3; 4; 170; 5; 6; 7; 8; 9; 99]) [("other", VInt 1)] with
     | (Ok n, o') => n = 80 /\ Marshal.lookup o' "number" = Some (VInt 16909060) /\ Marshal.lookup o' "flags" = Some (VInt 5)
         /\ Marshal.lookup o' "data" = Some (VBytes [170; 5; 6; 7; 8; 9]) /\ Marshal.lookup o' "other" = Some (VInt 1)
     | _ => False
     end.
Proof.
  intros h. destruct (record_places [record_number h; record_flags h; record_data] (Some 80)) as (P1 & P2 & P3).
  split; [apply record_class_made|]. split; [plain_class|]. split; [repeat constructor; cbn; intuition discriminate|].
  split; [apply (record_always _ _ _ 1); try reflexivity; [exact P1|cbn; lia..]|]. split; [apply (record_always _ _ _ 3); try reflexivity; [exact P2|cbn; lia..]|].
  split; [repeat split; discriminate|]. split; [apply (record_always _ _ _ 4); try reflexivity; [exact P3|cbn; lia..]|].
  destruct h; vm_compute; auto.
Qed.

(** ** C80.  Input that ends before the last field.  unpack() fails if an integer of 1, 2, 4 or 8
    bytes is not completely there. *)
Theorem C80_integers_need_their_bytes : forall C l o i h e signed s k a, plain C -> NoDup (map f_name (k_fields C)) -> bytes_ok l -> struct_width e s -> 0 <= a ->
  nth_error (k_fields C) i = Some (int_field h e signed None k) ->
  always_at C (int_field h e signed None k) (byte_place a (a + width_in_bytes s)) -> zlen l < a + width_in_bytes s ->
  forall n o', buffer_unpack C (BArr l) o <> (Ok n, o').
Proof.
  intros C l o i h e signed s k a Hp Hn B W Ha Hf Hr Hl n o' H.
  destruct (unpack_int_attr C l o n o' i h e signed s k a Hp Hn B W Ha Hf Hr H) as (X & _). lia.
Qed.
Print Assumptions C80_integers_need_their_bytes.

(** Byte arrays and integers of other widths take what is there, so a class of these unpacks any
    input, of any length, and unpack() still returns the size of the class. *)
Theorem C80_others_do_not : forall C b o n lay, cls_ok C -> NoDup (map f_name (k_fields C)) -> buf_ok b -> k_size C = Some n ->
  Forall2 (fun f x => always_at C f (fst x) /\ tolerant b f (fst x) (snd x)) (k_fields C) lay ->
  exists o', buffer_unpack C b o = (Ok n, o') /\ has_values o' (k_fields C) lay /\ only_fields_changed C o o'.
Proof. exact unpack_tolerant. Qed.
Print Assumptions C80_others_do_not.

(** The same class without its first field: any input is accepted. *)
Definition rest_class (h : host) : cls := mkCls [record_flags h; record_data] record_users (Some 80).
Lemma rest_class_made h : make_class [record_flags h; record_data] record_users = Ok (rest_class h).
Proof. apply make_class_by. destruct h; vm_compute; reflexivity. Qed.
Example C80_accepts_anything : forall h l o, bytes_ok l -> exists o', buffer_unpack (rest_class h) (BArr l) o = (Ok 80, o')
  /\ Marshal.lookup o' "flags" = Some (VInt (bits_value (bits_at (BArr l) [mkR 33 (Some 36)])))
  /\ Marshal.lookup o' "data" = Some (VBytes (py_slice l 4 10)).
Proof.
  intros h l o B. destruct (record_places [record_flags h; record_data] (Some 80)) as (_ & P2 & P3).
  destruct (C80_others_do_not (rest_class h) (BArr l) o 80
    [([mkR 33 (Some 36)], VInt (bits_value (bits_at (BArr l) [mkR 33 (Some 36)]))); (byte_place 4 10, VBytes (py_slice l 4 10))]) as (o' & U & V & _).
  - destruct h; class_ok.
  - repeat constructor; cbn; intuition discriminate.
  - exact B.
  - reflexivity.
  - constructor; [|constructor; [|constructor]]; cbn [fst snd].
    + split; [apply (record_always _ _ _ 3); try reflexivity; [exact P2|cbn; lia..]|]. apply tolerant_int. repeat split; discriminate.
    + split; [apply (record_always _ _ _ 4); try reflexivity; [exact P3|cbn; lia..]|]. apply tolerant_bytes; [apply slice_ok, B|]. apply bits_at_bytes; lia.
  - exists o'. split; [exact U|]. inversion V as [|? ? ? ? V1 V']; subst. inversion V' as [|? ? ? ? V2 _]; subst. auto.
Qed.
Example C80_nonvacuous : forall h,
  fst (buffer_unpack (record_class h) (BArr [1; 2; 3]) []) = Err InstructBufferError
  /\ buffer_unpack (record_class h) (BArr [1; 2; 3; 4]) [] = (Ok 80, [("number", VInt 16909060); ("flags", VInt 0); ("data", VBytes [])]).
Proof. intros h. destruct h; vm_compute; auto. Qed.

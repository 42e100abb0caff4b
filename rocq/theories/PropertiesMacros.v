(** C73, C74: definitions that are checked when they are made. *)
From Verif Require Import Base IntCodec CodecSpec Stream StreamSpec MinMax Marshal FieldSpec FieldFacts BitFieldSpec BitFacts Macros MacrosSpec MacrosFacts DefineFacts.
From Coq Require Import ZArith List Bool String Lia.
Import ListNotations.
Open Scope string_scope.
Open Scope list_scope.
Open Scope Z_scope.

(** C73.  A group of bit fields given by widths is accepted exactly if its widths add up to whole
    bytes, and then has that many bytes. *)
Theorem C73_bit_group : forall fs,
  Forall (fun f => ~ positional f) fs ->
  (Forall (fun f => 0 <= width f <= maxsize) fs ->
     (total (map width fs) mod 8 = 0 -> BitFields fs = Ok (FBits fs) /\ 8 * bits_size fs = total (map width fs))
     /\ (total (map width fs) mod 8 <> 0 -> BitFields fs = Err BitFieldNotInByteBoundry))
  /\ (~ Forall (fun f => 0 <= width f <= maxsize) fs -> BitFields fs = Err InstructError).
Proof. exact bit_group. Qed.
Print Assumptions C73_bit_group.

(** A group given by positions is accepted exactly if its highest bit is the last of a byte. *)
Theorem C73_positional_group : forall fs top,
  Forall (fun f => exists sl, bf_marshal f = BMPos sl /\ sl <> []) fs ->
  is_top fs top ->
  Forall (fun f => 0 <= width f <= maxsize) fs ->
  (top mod 8 = 0 -> exists n, BitFields fs = Ok (FPosBits n fs) /\ 8 * n = top)
  /\ (top mod 8 <> 0 -> BitFields fs = Err BitFieldNotInByteBoundry).
Proof. exact positional_group. Qed.
Print Assumptions C73_positional_group.

(** With a declared number of bits that number counts, and must not be smaller. *)
Theorem C73_declared_size : forall bit_size fs top,
  Forall (fun f => exists sl, bf_marshal f = BMPos sl /\ sl <> []) fs ->
  is_top fs top ->
  Forall (fun f => 0 <= width f <= maxsize) fs ->
  let declared := match bit_size with None => top | Some n => n end in
  (declared < top -> posbits_container_size bit_size fs = Err ValueError)
  /\ (top <= declared -> declared mod 8 <> 0 -> posbits_container_size bit_size fs = Err BitFieldNotInByteBoundry)
  /\ (top <= declared -> declared mod 8 = 0 -> exists n, posbits_container_size bit_size fs = Ok n /\ 8 * n = declared).
Proof. exact positional_size. Qed.
Print Assumptions C73_declared_size.

(** Without fields, or with a field that has no bits, there is no size. *)
Theorem C73_no_bits : forall bit_size fs g, Forall (fun f => exists sl, bf_marshal f = BMPos sl) fs -> Forall (fun f => 0 <= width f <= maxsize) fs ->
  fs = [] \/ (In g fs /\ bf_marshal g = BMPos []) -> posbits_container_size bit_size fs = Err ValueError.
Proof. exact positional_no_bits. Qed.
Print Assumptions C73_no_bits.

(** A field without positions in a group of fields with positions. *)
Theorem C73_not_positional : forall bit_size l1 g l2, Forall (fun f => exists sl, bf_marshal f = BMPos sl /\ sl <> []) l1 -> ~ positional g ->
  Forall (fun f => 0 <= width f <= maxsize) (l1 ++ g :: l2) -> posbits_container_size bit_size (l1 ++ g :: l2) = Err AttributeError.
Proof. exact not_positional. Qed.
Print Assumptions C73_not_positional.

(** The two kinds do not mix. *)
Theorem C73_mixed_group : forall fs f g,
  In f fs -> In g fs -> positional f -> ~ positional g -> BitFields fs = Err AssertionError.
Proof. exact mixed_group. Qed.
Print Assumptions C73_mixed_group.

(** A group written with flags, fields and padding: it is accepted, every item has its own bits, one
    bit for a flag, and what is written is read back. *)
Theorem C73_declared_group : forall ds a,
  let its := map declared_item ds in
  Forall (fun d => 0 <= item_width (declared_item d)) ds ->
  widths its mod 8 = 0 -> widths its <= maxsize ->
  NoDup (item_names its) ->
  (forall n w, In (Named n w) its -> exists z, lookup a n = Some (VInt z)) ->
  exists f b, BitFields (map declare_bits ds) = Ok f
    /\ zlen b = widths its / 8
    /\ (forall h out, write_field h f a out = (Ok tt, out ++ b))
    /\ (forall l1 n w l2 z i, its = l1 ++ Named n w :: l2 -> lookup a n = Some (VInt z) ->
          0 <= i < w -> bit_at b (widths l1 + i) = Z.testbit z i)
    /\ (forall h cls cctx c acc pre tail, exists acc',
          read_field h cls cctx f c (SBytesIO (pre ++ b ++ tail) (zlen pre), acc)
          = (Ok tt, (SBytesIO (pre ++ b ++ tail) (zlen pre + zlen b), acc'))
          /\ (forall n w z, In (Named n w) its -> lookup a n = Some (VInt z) -> lookup acc' n = Some (VInt (z mod 2 ^ w)))
          /\ (forall n, ~ In n (item_names its) -> lookup acc' n = lookup acc n)).
Proof.
  intros ds a its W M B N L. exists (FBits (map item_field its)).
  destruct (BitFacts.bit_group its a) as (b & H1 & H2 & H3 & _ & H4); auto.
  - unfold its. now apply Forall_map.
  - assert (0 <= widths its) by (apply declared_total; exact W). lia.
  - exists b. split; [now apply declared_accepted|]. auto.
Qed.
Print Assumptions C73_declared_group.

Definition flags : list bitfield := [BitFlag "a" VNone; BitField "b" (WInt 3) VNone; BitPadding 4].
Definition scattered : list bitfield := [BitField "a" (WList [(0, 4); (12, 16)]) VNone; BitField "b" (WSlice (4, 12)) VNone].
Example C73_nonvacuous :
  Forall (fun f => ~ positional f) flags /\ Forall (fun f => 0 <= width f <= maxsize) flags
  /\ BitFields flags = Ok (FBits flags) /\ bits_size flags = 1
  /\ BitFields (tl flags) = Err BitFieldNotInByteBoundry
  /\ BitFields [BitField "a" (WInt (-8)) VNone] = Err InstructError
  /\ Forall (fun f => exists sl, bf_marshal f = BMPos sl /\ sl <> []) scattered
  /\ is_top scattered 16
  /\ BitFields scattered = Ok (FPosBits 2 scattered)
  /\ posbits_container_size (Some 8) scattered = Err ValueError
  /\ BitFields (flags ++ scattered) = Err AssertionError.
Proof.
  split. { repeat constructor; intros (sl & E); discriminate. }
  split. { repeat constructor; discriminate. }
  do 4 (split; [reflexivity|]). split. { repeat constructor; eexists; (split; [reflexivity|discriminate]). }
  split. { split.
    - exists (BitField "a" (WList [(0, 4); (12, 16)]) VNone), (12, 16). split; [now left|]. split; auto. eexists. split; [reflexivity|]. now right; left.
    - intros f s [<-|[<-|[]]] (sl & E & I); cbn in E; assert (sl = [(0, 4); (12, 16)] \/ sl = [(4, 12)]) as [->| ->] by (first [left; congruence|right; congruence]);
        cbn in I; repeat (destruct I as [<-|I]; [cbn; lia|]); easy. }
  repeat split.
Qed.

Example C73_nonvacuous_declared :
  let ds := [DFlag "a"; DBits "b" 3; DPad 3; DFlag "c"] in
  Forall (fun d => 0 <= item_width (declared_item d)) ds /\ widths (map declared_item ds) = 8
  /\ NoDup (item_names (map declared_item ds))
  /\ (let* f := BitFields (map declare_bits ds) in fst (write_field HostLittle f [("a", VInt 1); ("b", VInt 5); ("c", VInt 3)] [])) = Ok tt
  /\ (match BitFields (map declare_bits ds) with Ok f => snd (write_field HostLittle f [("a", VInt 1); ("b", VInt 5); ("c", VInt 3)] []) | Err _ => [] end) = [139].
Proof.
  cbn zeta. split; [repeat constructor; discriminate|]. split; [reflexivity|]. split; [cbn; repeat constructor; cbn; intuition discriminate|]. split; reflexivity.
Qed.

(** C74.  A default is checked when the field is defined: one that is accepted can be written, and
    takes exactly the space of the field. *)
Theorem C74_padded_string_default : forall n size p0 ps d b f h out,
  PaddedString n size (VBytes (p0 :: ps)) d (VBytes b) = Ok f ->
  exists enc, write_field h f (new_attrs [f] []) out = (Ok tt, out ++ enc) /\ zlen enc = size.
Proof. exact padded_default. Qed.
Print Assumptions C74_padded_string_default.
Theorem C74_fixed_buffer_default : forall n size b f h c,
  bytes_ok b -> size <= maxsize ->
  FixedSizeBuffer n size (VBytes b) = Ok f ->
  (forall out, write_field h f (new_attrs [f] []) out = (Ok tt, out ++ b)) /\ zlen b = size
  /\ exists m, f = FField n m (VBytes b) /\ roundtrips h m c (VBytes b) b.
Proof. exact buffer_default. Qed.
Print Assumptions C74_fixed_buffer_default.
Theorem C74_fixed_array_default : forall n k el l encs f h c,
  Forall2 (roundtrips h el c) l encs ->
  FixedSizeArray n k el (VList l) = Ok f ->
  zlen l = k /\ forall out, write_field h f (new_attrs [f] []) out = (Ok tt, out ++ List.concat encs).
Proof. exact array_default. Qed.
Print Assumptions C74_fixed_array_default.

(** The rejected ones are those of the wrong length. *)
Theorem C74_rejected_defaults : forall v len size,
  v <> VNone -> py_len v = Ok len ->
  (forall n padding d, PaddedString n size padding d v = Err AssertionError <-> size < len)
  /\ (forall n, FixedSizeBuffer n size v = Err AssertionError <-> len <> size)
  /\ (forall n el, FixedSizeArray n size el v = Err AssertionError <-> len <> size).
Proof.
  intros v len size N L. split; [intros n padding d; exact (padded_rejected n size padding d v len N L)|exact (exact_rejected v len size N L)].
Qed.
Print Assumptions C74_rejected_defaults.

(** A constant is written and read with the type that was given for it; a value of which the type is
    not known must come with one. *)
Theorem C74_constant_of_type : forall h n v w m mv c enc,
  v = COther w \/ (exists m', v = CMarshal m' w \/ v = CObject m' w) ->
  (forall c', roundtrips h m c' w enc) -> py_eq w w = true ->
  exists f, ConstField n v (Some (CMarshal m mv)) = Ok f
    /\ (forall a out, write_field h f a out = (Ok tt, out ++ enc))
    /\ forall cls cctx a pre tail, read_field h cls cctx f c (SBytesIO (pre ++ enc ++ tail) (zlen pre), a)
         = (Ok tt, (SBytesIO (pre ++ enc ++ tail) (zlen pre + zlen enc), a)).
Proof. exact const_given. Qed.
Print Assumptions C74_constant_of_type.
Theorem C74_constant_without_type : forall n v w x,
  ConstField n (COther v) None = Err InstructError /\ ConstField n w (Some (COther x)) = Err InstructError.
Proof. split; reflexivity. Qed.
Print Assumptions C74_constant_without_type.

(** Padding bytes are given by one character, and written that many times. *)
Theorem C74_byte_padding : forall size char,
  (zlen char = 1 -> exists f, BytePadding size char = Ok f
     /\ forall h a out, write_field h f a out = (Ok tt, out ++ List.concat (repeat char (Z.to_nat size))))
  /\ (zlen char <> 1 -> BytePadding size char = Err AssertionError).
Proof. exact padding_defined. Qed.
Print Assumptions C74_byte_padding.

(** A constant made from a Struct object is accepted, but no stream can be read with it. *)
Theorem C74_object_constant_refuted : forall n cm cls a,
  exists f, ConstField n (CObject cm (VObj cls a)) None = Ok f
  /\ forall h cls' cctx c st, fst (read_field h cls' cctx f c st) <> Ok tt.
Proof.
  intros n cm cls a. exists (FConst n cm (VObj cls a)). split; [reflexivity|]. intros h cls' cctx c st. exact (const_struct_unreadable h cls' cctx n cm cls a c st).
Qed.
Print Assumptions C74_object_constant_refuted.

Example C74_nonvacuous :
  (exists f, PaddedString "s" 5 (VBytes [32]) PRight (VBytes [65; 66; 32]) = Ok f
             /\ write_field HostLittle f (new_attrs [f] []) [] = (Ok tt, [65; 66; 32; 32; 32]))
  /\ PaddedString "s" 2 (VBytes [32]) PRight (VBytes [65; 66; 32]) = Err AssertionError
  /\ (exists f, FixedSizeBuffer "s" 2 (VBytes [65; 66]) = Ok f /\ write_field HostLittle f (new_attrs [f] []) [] = (Ok tt, [65; 66]))
  /\ FixedSizeBuffer "s" 3 (VBytes [65; 66]) = Err AssertionError
  /\ (exists f, FixedSizeArray "s" 2 (MInt UBInt16Marshal) (VList [VInt 1; VInt 2]) = Ok f /\ write_field HostLittle f (new_attrs [f] []) [] = (Ok tt, [0; 1; 0; 2])).
Proof. repeat split; eexists; split; reflexivity. Qed.
Example C74_nonvacuous_constant :
  (exists enc, forall c, roundtrips HostLittle (MInt UBInt16Marshal) c (VInt 258) enc)
  /\ (exists f, ConstField "magic" (COther (VInt 258)) (Some (CMarshal (MInt UBInt16Marshal) VNone)) = Ok f
        /\ write_field HostLittle f [] [] = (Ok tt, [1; 2]))
  /\ (exists f, BytePadding 3 [65] = Ok f /\ write_field HostLittle f [] [] = (Ok tt, [65; 65; 65]))
  /\ BytePadding 3 [65; 66] = Err AssertionError.
Proof.
  split; [|repeat split; eexists; split; reflexivity].
  destruct (int_enc HostLittle UBInt16Marshal 258) as (enc & _ & R); [|exists enc; exact R]. cbn. lia.
Qed.

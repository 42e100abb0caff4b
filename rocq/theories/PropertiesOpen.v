(** Property C87: fields whose position has an open range (bytes_ref[4:]). *)
From Verif Require Import Base Marshal Range RangeSpec RangeFacts IoBuffer IoSpec RefEngine RefSpec RefStatic BufferModel BufferMacros BufferCodecSpec BufferSpec BufferBuilders
  BufferClass BufferDep BufferExamples OpenSpec OpenProofs.
From Coq Require Import ZArith List Bool String Lia ZifyBool.
Import ListNotations.
Open Scope list_scope.
Open Scope Z_scope.
Open Scope string_scope.

(** ** C87.  Every packed field lies where its position, as evaluated while packing, says: there if
    the position is closed; otherwise the ranges before the open one are filled first, the open one
    takes what is left of the field, and nothing can follow it. *)
Theorem C87_positions : forall C o bytes o', Forall predefined (k_fields C) -> buffer_pack C o = (Ok bytes, o') ->
  exists ps m bits, packing C (numbered C) [] (mkBst o None) ps m (mkBst o' None)
    /\ output_of ps bits /\ bytes = sized (k_size C) (bytes_of_bits bits)
    /\ Forall2 (placed_by m) (k_fields C) ps
    /\ (plain C -> NoDup (map f_name (k_fields C)) -> quiet_before C -> Forall2 (packed_from C o o' m) (k_fields C) ps).
Proof. intros C o bytes o' H. exact (pack_positions C o bytes o' (predefined_packers C H)). Qed.
Print Assumptions C87_positions.

(** A payload split around other data: whatever is longer than the first parts of the position is
    restored from exactly the bytes that were packed. *)
Theorem C87_split_payload_roundtrip : forall C k front a l c1 c2 o, cls_ok C -> k_fields C = [bytearray_field k] -> k_size C = None ->
  kw_before k = None -> kw_after k = None -> kw_unpack_after k = [] ->
  static (nodes C) (kw_where_pack k) (RRanges (front ++ [mkR a None])) -> static (nodes C) (kw_where_unpack k) (RRanges (front ++ [mkR a None])) ->
  static (nodes C) (kw_pack_if k) c1 -> truthy c1 = true -> static (nodes C) (kw_unpack_if k) c2 -> truthy c2 = true ->
  Forall nonempty_range (front ++ [mkR a None]) -> pairwise_disjoint (front ++ [mkR a None]) -> Forall closed front ->
  (a - zlen (all_positions front)) mod 8 = 0 ->
  bytes_ok l -> zlen (all_positions front) < 8 * zlen l -> Marshal.lookup o (kw_name k) = Some (VBytes l) ->
  exists bytes o', buffer_pack C o = (Ok bytes, o') /\ 8 * zlen bytes = a + 8 * zlen l - zlen (all_positions front)
    /\ forall o2, exists o'', buffer_unpack C (BArr bytes) o2 = (Ok (8 * zlen bytes), o'') /\ Marshal.lookup o'' (kw_name k) = Some (VBytes l).
Proof. exact split_roundtrip. Qed.
Print Assumptions C87_split_payload_roundtrip.

(** A payload shorter than the ranges before the open one cannot be packed. *)
Theorem C87_short_payload : forall C i k front a l c o, Forall predefined (k_fields C) -> plain C -> NoDup (map f_name (k_fields C)) -> quiet_before C ->
  nth_error (k_fields C) i = Some (bytearray_field k) -> kw_before k = None ->
  static (nodes C) (kw_where_pack k) (RRanges (front ++ [mkR a None])) -> static (nodes C) (kw_pack_if k) c -> truthy c = true -> Forall closed front ->
  Marshal.lookup o (kw_name k) = Some (VBytes l) -> 8 * zlen l < zlen (all_positions front) -> forall bytes o', buffer_pack C o <> (Ok bytes, o').
Proof. intros C i k front a l c o H. exact (short_payload C i k front a l c o (predefined_packers C H)). Qed.
Print Assumptions C87_short_payload.

(** With a range that is not empty after the open one no object can be packed, although unpack reads
    such positions (C79). *)
Theorem C87_open_range_not_last : forall C i f front rest a c, Forall predefined (k_fields C) -> nth_error (k_fields C) i = Some f ->
  static (nodes C) (f_where_pack f) (RRanges (front ++ mkR a None :: rest)) -> static (nodes C) (f_pack_if f) c -> truthy c = true ->
  Forall closed front -> Exists (fun q => r_stop q <> None /\ r_stop q <> Some (r_start q)) rest ->
  forall o bytes o', buffer_pack C o <> (Ok bytes, o').
Proof. intros C i f front rest a c H. exact (open_not_last C i f front rest a c (predefined_packers C H)). Qed.
Print Assumptions C87_open_range_not_last.

(** class Split(Buffer):
        data = bytearray_field(where=bytes_ref[0:2] + bytes_ref[4:])
    and the same with the ranges the other way round. *)
Definition split_users (first second : nat) : list uref :=
  [UConst (rbool true); UByteSlice (num 0) (num 2); UByteSlice (num 4) (AConst (RVal VNone)); UList [ARef (user first); ARef (user second)]].
Definition split_kw : keywords := packet_kw "data" 3 3 None.
Definition split (first second : nat) : cls := mkCls [bytearray_field split_kw] (split_users first second) None.
Lemma split_made : make_class [bytearray_field split_kw] (split_users 1 2) = Ok (split 1 2) /\ make_class [bytearray_field split_kw] (split_users 2 1) = Ok (split 2 1).
Proof. split; apply make_class_by; vm_compute; reflexivity. Qed.
Lemma split_true a b : static (nodes (split a b)) (user 0) (rbool true).
Proof. exists 1%nat. constructor. constructor. Qed.
Lemma split_where : static (nodes (split 1 2)) (user 3) (RRanges ([mkR 0 (Some 16)] ++ [mkR 32 None]))
  /\ static (nodes (split 2 1)) (user 3) (RRanges ([] ++ mkR 32 None :: [mkR 0 (Some 16)])).
Proof. split; eexists; repeat econstructor. Qed.

Example C87_nonvacuous_split :
  cls_ok (split 1 2) /\ static (nodes (split 1 2)) (kw_where_pack split_kw) (RRanges ([mkR 0 (Some 16)] ++ [mkR 32 None]))
  /\ Forall nonempty_range ([mkR 0 (Some 16)] ++ [mkR 32 None]) /\ pairwise_disjoint ([mkR 0 (Some 16)] ++ [mkR 32 None]) /\ Forall closed [mkR 0 (Some 16)]
  /\ (32 - zlen (all_positions [mkR 0 (Some 16)])) mod 8 = 0 /\ zlen (all_positions [mkR 0 (Some 16)]) < 8 * zlen [1; 2; 3; 4; 5]
  /\ fst (buffer_pack (split 1 2) [("data", VBytes [1; 2; 3; 4; 5])]) = Ok [1; 2; 0; 0; 3; 4; 5]
  /\ buffer_unpack (split 1 2) (BArr [1; 2; 9; 9; 3; 4; 5]) [("data", VNone)] = (Ok 56, [("data", VBytes [1; 2; 3; 4; 5])]).
Proof.
  split; [class_ok|]. split; [apply split_where|]. split.
  { repeat constructor; cbn; try lia; vm_compute; reflexivity. }
  split. { constructor; [|repeat constructor]. constructor; [|constructor]. intros (p & A & B). unfold in_range in *. cbn in *. lia. }
  split; [repeat constructor; cbn; try lia; discriminate|]. split; [reflexivity|]. split; [reflexivity|]. split; vm_compute; reflexivity.
Qed.
Example C87_nonvacuous_short : Forall predefined (k_fields (split 1 2)) /\ plain (split 1 2) /\ NoDup (map f_name (k_fields (split 1 2))) /\ quiet_before (split 1 2)
  /\ 8 * zlen [1] < zlen (all_positions [mkR 0 (Some 16)])
  /\ fst (buffer_pack (split 1 2) [("data", VBytes [1])]) = Err InstructBufferError.
Proof.
  split; [repeat constructor|]. split.
  { split; repeat constructor; cbn; auto. }
  split; [repeat constructor; intros []|]. split; [repeat constructor|]. split; [reflexivity|]. vm_compute; reflexivity.
Qed.
Example C87_nonvacuous_not_last : Exists (fun q => r_stop q <> None /\ r_stop q <> Some (r_start q)) [mkR 0 (Some 16)]
  /\ static (nodes (split 2 1)) (f_where_pack (bytearray_field split_kw)) (RRanges ([] ++ mkR 32 None :: [mkR 0 (Some 16)]))
  /\ fst (buffer_pack (split 2 1) [("data", VBytes [1; 2; 3; 4; 5])]) = Err InstructBufferError
  /\ buffer_unpack (split 2 1) (BArr [4; 5; 9; 9; 1; 2; 3]) [("data", VNone)] = (Ok 16, [("data", VBytes [1; 2; 3; 4; 5])]).
Proof. split; [constructor; split; discriminate|]. split; [apply split_where|]. split; vm_compute; reflexivity. Qed.

(** Without the alignment an object that was packed cannot be read from its own bytes: the payload
    read is longer than its position. *)
Definition bits_split_users : list uref :=
  [UConst (rbool true); UByteNum (num 0); UBitSlice (user 1) (num 0) (num 4); UByteSlice (num 1) (AConst (RVal VNone)); UList [ARef (user 2); ARef (user 3)]].
Definition bits_split : cls := mkCls [bytearray_field (packet_kw "data" 4 4 None)] bits_split_users None.
Theorem C87_unaligned_refuted : make_class [bytearray_field (packet_kw "data" 4 4 None)] bits_split_users = Ok bits_split
  /\ exists l bytes, fst (buffer_pack bits_split [("data", VBytes l)]) = Ok bytes
     /\ fst (buffer_unpack bits_split (BArr bytes) [("data", VNone)]) = Err AssertionError.
Proof.
  split; [apply make_class_by; vm_compute; reflexivity|]. exists [255; 255], [15; 255; 15]. split; vm_compute; reflexivity.
Qed.
Print Assumptions C87_unaligned_refuted.

(** Properties C77 and C78: set_after_unpack and set_before_pack. *)
From Verif Require Import Base BaseProofs IntCodec CodecSpec Stream Marshal FieldSpec Range RangeSpec IoBuffer IoSpec Serialize SerializeSpec
  RefEngine RefSpec BufferModel BufferSpec BufferMacros BufferCodecSpec BufferBuilders BufferConds BufferHooks BufferExamples.
From Coq Require Import ZArith List Bool String Lia.
Import ListNotations.
Open Scope string_scope.
Open Scope list_scope.
Open Scope Z_scope.

(** ** C77.  set_after_unpack=g: whatever was unpacked, the attribute of the field is what it was
    before (None if the condition of the field is false).  The result of [g] is not stored. *)
Theorem C77_set_after_unpack_not_stored : forall C b o n o' i f g, plain C -> NoDup (map f_name (k_fields C)) -> buf_ok b ->
  nth_error (k_fields C) i = Some f -> f_after f = Some g -> buffer_unpack C b o = (Ok n, o') ->
  exists input m s m' s', input_buffer b = Ok input /\ unpacking C (numbered C) [] (mkBst o (Some input)) m s
    /\ eval rid_eqb (nodes C) (mkRid KTotal 0) m s (Ok (rnum n)) m' s' /\ o' = s_obj s'
    /\ exists c, RefEngine.lookup rid_eqb (f_unpack_if f) m' = Some c
       /\ Marshal.lookup o' (f_name f) = if truthy c then Marshal.lookup o (f_name f) else Some VNone.
Proof. exact unpack_not_stored. Qed.
Print Assumptions C77_set_after_unpack_not_stored.

(** An unconditional field. *)
Theorem C77_attribute_untouched : forall C b o n o' i f g c, plain C -> NoDup (map f_name (k_fields C)) -> buf_ok b ->
  nth_error (k_fields C) i = Some f -> f_after f = Some g -> static (nodes C) (f_unpack_if f) c -> truthy c = true ->
  buffer_unpack C b o = (Ok n, o') -> Marshal.lookup o' (f_name f) = Marshal.lookup o (f_name f).
Proof. exact unpack_not_stored_always. Qed.
Print Assumptions C77_attribute_untouched.

(** References to the field have the converted value while unpacking. *)
Theorem C77_references_see_converted : forall C i f g m s v m' s', nth_error (k_fields C) i = Some f -> f_after f = Some g -> s_input s <> None ->
  RefEngine.lookup rid_eqb (mkRid KField i) m = None -> RefEngine.lookup rid_eqb (mkRid KUnpackValue i) m = None ->
  eval rid_eqb (nodes C) (mkRid KField i) m s (Ok v) m' s' ->
  exists x y m1, eval rid_eqb (nodes C) (mkRid KFieldUnpack i) m s (Ok (RVal x)) m1 s' /\ g x = Ok y /\ v = RVal y.
Proof. exact field_reference_converted. Qed.
Print Assumptions C77_references_see_converted.

(** class Half(Buffer):
        half = be_uint_field(where=bytes_ref[0:1], set_after_unpack=lambda x: 2 * x)
        data = bytearray_field(where=bytes_ref[1:1 + half]) *)
Definition twice (v : value) : res value := match v with VInt n => Ok (VInt (2 * n)) | _ => Err TypeError end.
Definition half_class (h : host) : cls :=
  mkCls [int_field h BBig false None (mkKw "half" VNone (user 1) (user 1) (user 0) (user 0) None (Some twice) []);
         bytearray_field (packet_kw "data" 3 3 None)]
        [UConst (rbool true); UByteSlice (num 0) (num 1); UNum OpAdd (num 1) (ARef (mkRid KField 0)); UByteSlice (num 1) (ARef (user 2))] None.
Ltac plain_class := split; repeat (apply Forall_cons; [unfold plain_field, plain_user, plain_arg, plain_rid; cbn; intuition constructor|]); apply Forall_nil.
Example C77_nonvacuous : forall h,
  plain (half_class h) /\ NoDup (map f_name (k_fields (half_class h)))
  /\ match buffer_unpack (half_class h) (BArr [2; 7; 8; 9; 10; 11]) [("half", VInt 77); ("data", VNone)] with
     | (Ok n, o') => n = 40 /\ Marshal.lookup o' "half" = Some (VInt 77) /\ Marshal.lookup o' "data" = Some (VBytes [7; 8; 9; 10])
     | _ => False
     end.
Proof.
  intros h. split; [|split].
  - plain_class.
  - repeat constructor; cbn; intuition discriminate.
  - destruct h; vm_compute; auto.
Qed.

(** ** C78.  pack() and the object.  Every field that contributes bytes contributes what its packer
    makes of the value that its attribute has after pack(): the value that was there, or the one that
    set_before_pack gave, which is stored.  All other attributes are as they were. *)
Theorem C78_object_has_what_was_packed : forall C o bytes o', plain C -> NoDup (map f_name (k_fields C)) -> quiet_before C ->
  Forall predefined (k_fields C) -> buffer_pack C o = (Ok bytes, o') ->
  exists ps m bits, packing C (numbered C) [] (mkBst o None) ps m (mkBst o' None)
    /\ output_of ps bits /\ bytes = sized (k_size C) (bytes_of_bits bits)
    /\ same_but_assigned C o o' /\ Forall2 (packed_from C o o' m) (k_fields C) ps.
Proof. intros C o bytes o' Hp Hn Hq Hk. exact (pack_leaves_packed C o bytes o' Hp Hn Hq (predefined_packers C Hk)). Qed.
Print Assumptions C78_object_has_what_was_packed.

(** The packet class: length and total size are computed, whatever the attributes were. *)
Example C78_nonvacuous :
  plain (packet HostLittle) /\ NoDup (map f_name (k_fields (packet HostLittle))) /\ quiet_before (packet HostLittle)
  /\ Forall predefined (k_fields (packet HostLittle))
  /\ match buffer_pack (packet HostLittle) [("length", VInt 99); ("data", VBytes [7; 8; 9]); ("crc", VInt 513); ("other", VInt 1)] with
     | (Ok bytes, o') => bytes = [0; 0; 0; 11; 0; 3; 7; 8; 9; 2; 1] /\ Marshal.lookup o' "length" = Some (VInt 3)
         /\ Marshal.lookup o' "total" = Some (VInt 11) /\ Marshal.lookup o' "other" = Some (VInt 1)
     | _ => False
     end.
Proof.
  split; [plain_class|]. split; [repeat constructor; cbn; intuition discriminate|].
  split; [repeat constructor|]. split; [repeat constructor|vm_compute; auto].
Qed.

(** Property C97: packing again. *)
From Verif Require Import Base BaseProofs IntCodec CodecSpec Stream Marshal FieldSpec Range RangeSpec IoBuffer IoSpec Serialize SerializeSpec
  RefEngine RefSpec BufferModel BufferSpec BufferMacros BufferCodecSpec BufferBuilders BufferConds BufferHooks BufferExamples RepeatSpec RepeatFacts PropertiesHooks.
From Coq Require Import ZArith List Bool String Lia.
Import ListNotations.
Open Scope string_scope.
Open Scope list_scope.
Open Scope Z_scope.

(** ** C97.  Two objects that differ only in attributes that packing computes give the same bytes, or the
    same error, and get the same assignments. *)
Theorem C97_objects_pack_alike : forall C computed nested alike, repeatable C computed nested alike -> NoDup (map f_name (k_fields C)) -> forall o1 o2,
  same_inputs C computed nested alike o1 o2 ->
  exists r W, Forall (fun p => computed (fst p)) W
    /\ buffer_pack C o1 = (r, assign_all W o1) /\ buffer_pack C o2 = (r, assign_all W o2).
Proof. exact pack_alike. Qed.
Print Assumptions C97_objects_pack_alike.

(** pack() a second time gives what the first gave, and changes nothing any more. *)
Theorem C97_pack_again : forall C computed nested alike o r o', repeatable C computed nested alike -> NoDup (map f_name (k_fields C)) ->
  buffer_pack C o = (r, o') -> buffer_pack C o' = (r, o').
Proof. exact pack_again. Qed.
Print Assumptions C97_pack_again.

(** Classes without functions of the object. *)
Theorem C97_pack_again_without_functions : forall C o r o', no_functions C -> NoDup (map f_name (k_fields C)) ->
  buffer_pack C o = (r, o') -> buffer_pack C o' = (r, o').
Proof. intros C o r o' H N. exact (pack_again C _ _ _ o r o' (no_functions_repeatable C H N) N). Qed.
Print Assumptions C97_pack_again_without_functions.

(** ... and the values that the computed attributes had before do not matter. *)
Theorem C97_computed_attributes_ignored : forall C o1 o2, no_functions C -> NoDup (map f_name (k_fields C)) ->
  (forall n, ~ assigned_name C n -> Marshal.lookup o1 n = Marshal.lookup o2 n) -> fst (buffer_pack C o1) = fst (buffer_pack C o2).
Proof.
  intros C o1 o2 H N S. destruct (pack_alike C (assigned_name C) (fun _ => false) (fun _ _ _ => False) (no_functions_repeatable C H N) N o1 o2) as (r & W & _ & E1 & E2).
  { intros n Hn. left. auto. }
  now rewrite E1, E2.
Qed.
Print Assumptions C97_computed_attributes_ignored.

(** A function of the object that reads an attribute which is not computed.
    class Sum(Buffer):
        data = bytearray_field(where=bytes_ref[1:])
        first = be_uint_field(where=bytes_ref[0:1], set_before_pack=lambda self: self.data[0]) *)
Definition first_byte (a : attrs) : res value * attrs :=
  (match Marshal.lookup a "data" with Some (VBytes (x :: _)) => Ok (VInt x) | Some (VBytes []) => Err IndexError | _ => Err TypeError end, a).
Definition sum_class : cls :=
  mkCls [bytearray_field (packet_kw "data" 2 2 None);
         int_field HostLittle BBig false None (packet_kw "first" 1 1 (Some (BFun first_byte)))]
        [UConst (rbool true); UByteSlice (num 0) (num 1); UByteSlice (num 1) (AConst (RVal VNone))] None.
Example C97_function : repeatable sum_class (fun n => n = "first") (fun _ => false) (fun _ _ _ => False) /\ NoDup (map f_name (k_fields sum_class))
  /\ buffer_pack sum_class [("data", VBytes [7; 8]); ("first", VInt 300)] = (Ok [7; 7; 8], [("data", VBytes [7; 8]); ("first", VInt 7)])
  /\ buffer_pack sum_class [("data", VBytes [7; 8]); ("first", VInt 7)] = (Ok [7; 7; 8], [("data", VBytes [7; 8]); ("first", VInt 7)]).
Proof.
  split; [split|split; [repeat constructor; cbn; intuition discriminate|split; vm_compute; reflexivity]].
  - repeat (apply Forall_cons; [cbn; auto|]). apply Forall_nil.
  - intros [|[|i]] f H; cbn in H; [| |destruct i; discriminate]; injection H as <-; unfold repeats_field, simple_rid, plain_rid; cbn;
      (split; [auto|]); (split; [auto|]); (split; [apply Forall_nil|]); (split; [|discriminate]); [discriminate|].
    split; [reflexivity|]. intros a b S. unfold first_byte.
    destruct (S "data") as [E|(i & g & v & w & _ & F & _)]; [discriminate| |discriminate].
    rewrite E. eexists. exists []. repeat split. apply Forall_nil.
Qed.

(** The packet class of C78. *)
Example C97_nonvacuous : no_functions (packet HostLittle) /\ NoDup (map f_name (k_fields (packet HostLittle)))
  /\ (let o := [("length", VInt 99); ("data", VBytes [7; 8; 9]); ("crc", VInt 513)] in
      fst (buffer_pack (packet HostLittle) o) = Ok [0; 0; 0; 11; 0; 3; 7; 8; 9; 2; 1] /\ snd (buffer_pack (packet HostLittle) o) <> o).
Proof.
  split; [split; [plain_class|repeat constructor]|].
  split; [repeat constructor; cbn; intuition discriminate|]. split; [vm_compute; reflexivity|vm_compute; discriminate].
Qed.

(** The condition on functions is needed: one that reads the attribute it is for.
    class Counter(Buffer): n = be_uint_field(where=bytes_ref[0:1], set_before_pack=lambda self: self.n + 1) *)
Definition count_up (a : attrs) : res value * attrs :=
  (match Marshal.lookup a "n" with Some (VInt x) => Ok (VInt (x + 1)) | _ => Err TypeError end, a).
Definition counter_class : cls :=
  mkCls [int_field HostLittle BBig false None (packet_kw "n" 1 1 (Some (BFun count_up)))]
        [UConst (rbool true); UByteSlice (num 0) (num 1)] None.
Example C97_counter : buffer_pack counter_class [("n", VInt 4)] = (Ok [5], [("n", VInt 5)])
  /\ buffer_pack counter_class [("n", VInt 5)] = (Ok [6], [("n", VInt 6)]).
Proof. split; vm_compute; reflexivity. Qed.

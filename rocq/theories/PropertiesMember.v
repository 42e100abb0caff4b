(** Properties C92 and C93: functions of the object in a Buffer class, and positions that depend on the length of the
    input. *)
From Verif Require Import Base BaseProofs IntCodec CodecSpec Stream Marshal FieldSpec FieldFacts Range RangeSpec IoBuffer IoSpec IoProofs Serialize SerializeSpec
  RefEngine RefSpec BufferModel BufferSpec BufferMacros BufferReadSpec BufferCodecSpec BufferCodecs BufferErrors BufferExamples ObjectSize MemberSpec MemberFacts LengthSpec LengthFacts.
From Coq Require Import ZArith List Bool String Lia ZifyBool ZifyNat.
Import ListNotations.
Open Scope string_scope.
Open Scope list_scope.
Open Scope Z_scope.
Ltac Zify.zify_post_hook ::= Z.div_mod_to_equations.

(** ** C92.  A function of the object (a member function used as a reference, or a set_before_pack function) is called
    at most once in pack(), whether it succeeds or fails, however often the class refers to it, ... *)
Theorem C92_pack_calls_once : forall C q watch, counts C q watch -> is_function C q ->
  forall o r o', buffer_pack C o = (r, o') -> at_most_once watch o o'.
Proof. exact pack_once. Qed.
Print Assumptions C92_pack_calls_once.

(** ... at most once in unpack(), ... *)
Theorem C92_unpack_calls_once : forall C q watch, counts C q watch -> is_function C q ->
  forall b o r o', buffer_unpack C b o = (r, o') -> at_most_once watch o o'.
Proof. exact unpack_once. Qed.
Print Assumptions C92_unpack_calls_once.

(** ... and at most once in calc_byte_size() of an object. *)
Theorem C92_size_calls_once : forall C own q watch o r o', counts C q watch -> is_function C q ->
  calc_byte_size C own o = (r, o') -> at_most_once watch o o'.
Proof. exact size_once. Qed.
Print Assumptions C92_size_calls_once.

(** A function that is the condition of some field is called exactly once in every pack() or unpack() that succeeds. *)
Theorem C92_pack_condition_called : forall C q watch, counts C q watch -> is_function C q ->
  forall o bytes o' f, In f (k_fields C) -> f_pack_if f = q -> buffer_pack C o = (Ok bytes, o') -> exactly_once watch o o'.
Proof. exact pack_condition_once. Qed.
Print Assumptions C92_pack_condition_called.
Theorem C92_unpack_condition_called : forall C q watch, counts C q watch -> is_function C q ->
  forall b o n o' f, In f (k_fields C) -> f_unpack_if f = q -> buffer_unpack C b o = (Ok n, o') -> exactly_once watch o o'.
Proof. exact unpack_condition_once. Qed.
Print Assumptions C92_unpack_condition_called.

(** What it sees: if it was not called before, the condition of field number [i] is called with the object as it is when
    the fields before [i] have been unpacked, and the object it leaves is the one that unpacking goes on with. *)
Theorem C92_condition_sees : forall C b o n o' i f k g, buf_ok b -> nth_error (k_fields C) i = Some f -> f_unpack_if f = mkRid KUser k ->
  nth_error (k_users C) k = Some (UMember g []) -> buffer_unpack C b o = (Ok n, o') ->
  exists input m1 s1, input_buffer b = Ok input /\ unpacking C (firstn i (numbered C)) [] (mkBst o (Some input)) m1 s1
    /\ (RefEngine.lookup rid_eqb (mkRid KUser k) m1 = None ->
        exists c o1 m2 s2 m3 s3 m' s', g [] (s_obj s1) = (Ok c, o1)
          /\ (if truthy c
              then evals_all C (map (mkRid KUnpackValue) (f_unpack_after f ++ [i])) ((mkRid KUser k, c) :: m1) (mkBst o1 (Some input)) m2 s2
              else s2 = mkBst (set_attr o1 (f_name f) VNone) (Some input))
          /\ unpacking C (skipn (S i) (numbered C)) m2 s2 m3 s3
          /\ eval rid_eqb (nodes C) (mkRid KTotal 0) m3 s3 (Ok (rnum n)) m' s' /\ o' = s_obj s').
Proof. exact condition_sees. Qed.
Print Assumptions C92_condition_sees.

(** class Foo(Buffer):
        def wanted(self): self.calls += 1; return self.kind == 1
        kind = uint_field(where=bytes_ref[0])
        one = uint_field(where=bytes_ref[1], pack_if=member_func_ref(wanted), unpack_if=the same)
        two = uint_field(where=bytes_ref[2], pack_if=the same, unpack_if=the same)
        last = uint_field(where=bytes_ref[3]) *)
Definition calls (o : attrs) : Z := match Marshal.lookup o "calls" with Some (VInt z) => z | _ => 0 end.
Definition wanted (late : bool) (_ : list rv) (o : attrs) : res rv * attrs :=
  (Ok (rbool (match Marshal.lookup o (if late then "last" else "kind") with Some (VInt z) => z =? 1 | _ => false end)), set_attr o "calls" (VInt (calls o + 1))).
Definition counting_kw (nm : name) (pos cond : nat) : keywords := mkKw nm VNone (user pos) (user pos) (user cond) (user cond) None None [].
Definition counting_fields (h : host) : list field :=
  [int_field h BBig false None (counting_kw "kind" 2 0); int_field h BBig false None (counting_kw "one" 3 1);
   int_field h BBig false None (counting_kw "two" 4 1); int_field h BBig false None (counting_kw "last" 5 0)].
Definition counting_users (late : bool) : list uref :=
  [UConst (rbool true); UMember (wanted late) []; UByteNum (num 0); UByteNum (num 1); UByteNum (num 2); UByteNum (num 3)].
Definition counting (h : host) (late : bool) : cls := mkCls (counting_fields h) (counting_users late) (Some 32).
Lemma calls_other o nm v : nm <> "calls" -> calls (set_attr o nm v) = calls o.
Proof. intros H. unfold calls. rewrite lookup_set_other by congruence. reflexivity. Qed.
Lemma calls_up o late vs : calls (snd (wanted late vs o)) = calls o + 1.
Proof. unfold wanted, snd. unfold calls at 1. now rewrite lookup_set_same. Qed.
Example C92_nonvacuous : forall h late,
  make_class (counting_fields h) (counting_users late) = Ok (counting h late)
  /\ counts (counting h late) (user 1) calls /\ is_function (counting h late) (user 1)
  /\ (exists f, In f (k_fields (counting h late)) /\ f_pack_if f = user 1 /\ f_unpack_if f = user 1)
  /\ buffer_unpack (counting h false) (BArr [1; 7; 8; 9]) [("calls", VInt 5); ("kind", VInt 0)]
     = (Ok 32, [("calls", VInt 6); ("kind", VInt 1); ("one", VInt 7); ("two", VInt 8); ("last", VInt 9)])
  /\ buffer_pack (counting h false) [("calls", VInt 5); ("kind", VInt 1); ("one", VInt 7); ("two", VInt 8); ("last", VInt 9)]
     = (Ok [1; 7; 8; 9], [("calls", VInt 6); ("kind", VInt 1); ("one", VInt 7); ("two", VInt 8); ("last", VInt 9)]).
Proof.
  intros h late. split; [apply make_class_by; destruct h; vm_compute; reflexivity|].
  split; [|split; [|split; [|split; [destruct h; vm_compute; reflexivity|destruct h; vm_compute; reflexivity]]]].
  - split; [|split].
    + intros f o v Hf. apply calls_other. cbn in Hf. intuition subst; discriminate.
    + intros k g l vs o Hk. destruct k as [|[|[|[|[|[|k]]]]]]; cbn in Hk; try discriminate; [|destruct k; discriminate].
      inversion Hk; subst. exact (calls_up o late vs).
    + intros i f g o Hi Hb. destruct i as [|[|[|[|i]]]]; cbn in Hi; try (destruct i; discriminate); inversion Hi; subst; cbn in Hb; discriminate.
  - left. exists 1%nat, (wanted late), []. split; reflexivity.
  - eexists. split; [right; left; reflexivity|]. split; reflexivity.
Qed.
(** A condition that looks at a later field sees the value the object had before: here last is 1 in the input, but was 0. *)
Example C92_sees_old_value : forall h,
  buffer_unpack (counting h true) (BArr [0; 7; 8; 1]) [("calls", VInt 5); ("last", VInt 0)]
  = (Ok 32, [("calls", VInt 6); ("last", VInt 1); ("kind", VInt 0); ("one", VNone); ("two", VNone)]).
Proof. destruct h; vm_compute; reflexivity. Qed.

(** ** C93.  Positions that depend on input_buffer_length.  A field whose position depends on nothing of the input but its
    length is read there: what its unpacker makes of the bits at that position is stored. *)
Theorem C93_place_from_length : forall C l o n o' i f r, plain C -> NoDup (map f_name (k_fields C)) -> bytes_ok l ->
  nth_error (k_fields C) i = Some f -> at_length C (zlen l) f r -> buffer_unpack C (BArr l) o = (Ok n, o') ->
  exists given args a x used, view_with given (bits_at (BArr l) r) /\ f_unpack f args a given (given_size f r) = Ok (x, used)
    /\ Marshal.lookup o' (f_name f) = Some x.
Proof. exact unpack_reads_length. Qed.
Print Assumptions C93_place_from_length.

(** A bytes field at bytes_ref[a:b], where a and b are numbers or input_buffer_length minus a number, gets exactly the bytes
    l[a:b] of the input. *)
Theorem C93_bytes_between : forall C l o n o' i k a b t c, plain C -> NoDup (map f_name (k_fields C)) -> bytes_ok l ->
  nth_error (k_fields C) i = Some (bytearray_field k) -> wrote_slice C a b (f_where_unpack (bytearray_field k)) ->
  f_unpack_if (bytearray_field k) = mkRid KUser t -> nth_error (k_users C) t = Some (UConst c) -> truthy c = true -> f_after (bytearray_field k) = None ->
  0 <= bound_at (zlen l) a -> bound_at (zlen l) a <= bound_at (zlen l) b ->
  buffer_unpack C (BArr l) o = (Ok n, o') ->
  Marshal.lookup o' (kw_name k) = Some (VBytes (py_slice l (bound_at (zlen l) a) (bound_at (zlen l) b))).
Proof. exact length_bytes_attr. Qed.
Print Assumptions C93_bytes_between.

(** Such a class can be used for unpacking only: pack() fails for every object if the position of a field that is always
    packed needs input_buffer_length. *)
Theorem C93_not_when_packing : forall C o f c, Forall predefined (k_fields C) -> In f (k_fields C) -> static (nodes C) (f_pack_if f) c -> truthy c = true ->
  needs_length C (f_where_pack f) -> exists e o', buffer_pack C o = (Err e, o').
Proof. exact no_pack_from_length. Qed.
Print Assumptions C93_not_when_packing.

(** class Frame(Buffer):
        head = uint_field(where=bytes_ref[0:1])
        data = bytearray_field(where=bytes_ref[1:input_buffer_length - 1])
        trailer = bytearray_field(where=bytes_ref[input_buffer_length - 1:input_buffer_length - 0]) *)
Definition frame_data : keywords := packet_kw "data" 3 3 None.
Definition frame_trailer : keywords := packet_kw "trailer" 6 6 None.
Definition frame_fields (h : host) : list field :=
  [int_field h BBig false None (packet_kw "head" 1 1 None); bytearray_field frame_data; bytearray_field frame_trailer].
Definition frame_users : list uref :=
  [UConst (rbool true); UByteSlice (num 0) (num 1); UNum OpSub (ARef (user 4)) (num 1); UByteSlice (num 1) (ARef (user 2)); UInputLen;
   UNum OpSub (ARef (user 4)) (num 0); UByteSlice (ARef (user 2)) (ARef (user 5))].
Definition frame (h : host) : cls := mkCls (frame_fields h) frame_users None.
Example C93_nonvacuous : forall h,
  make_class (frame_fields h) frame_users = Ok (frame h)
  /\ plain (frame h) /\ NoDup (map f_name (k_fields (frame h)))
  /\ wrote_slice (frame h) (Fixed 1) (FromEnd 1) (f_where_unpack (bytearray_field frame_data))
  /\ wrote_slice (frame h) (FromEnd 1) (FromEnd 0) (f_where_unpack (bytearray_field frame_trailer))
  /\ buffer_unpack (frame h) (BArr [5; 10; 20; 30; 99]) []
     = (Ok 40, [("head", VInt 5); ("data", VBytes [10; 20; 30]); ("trailer", VBytes [99])])
  /\ Forall predefined (k_fields (frame h)) /\ static (nodes (frame h)) (user 0) (rbool true)
  /\ needs_length (frame h) (f_where_pack (bytearray_field frame_data))
  /\ buffer_pack (frame h) [("head", VInt 5); ("data", VBytes [10; 20; 30]); ("trailer", VBytes [99])]
     = (Err InstructBufferError, [("head", VInt 5); ("data", VBytes [10; 20; 30]); ("trailer", VBytes [99])]).
Proof.
  intros h. split; [apply make_class_by; destruct h; vm_compute; reflexivity|].
  split; [split; repeat (apply Forall_cons; [unfold plain_field, plain_user, plain_arg, plain_rid; cbn; intuition constructor|]); apply Forall_nil|].
  split; [repeat constructor; cbn; intuition discriminate|].
  split; [exists 3%nat, (num 1), (ARef (user 2)); repeat split; exists 2%nat, 4%nat; repeat split|].
  split; [exists 6%nat, (ARef (user 2)), (ARef (user 5)); repeat split; [exists 2%nat, 4%nat|exists 5%nat, 4%nat]; repeat split|].
  split; [destruct h; vm_compute; reflexivity|].
  split; [repeat constructor|].
  split; [exists 1%nat; constructor; constructor|].
  split; [|destruct h; vm_compute; reflexivity].
  apply (nl_slice _ 3 (num 1) (ARef (user 2)) (user 2)); [reflexivity|now right|].
  apply (nl_num _ 2 OpSub (ARef (user 4)) (num 1) (user 4)); [reflexivity|now left|]. now apply nl_len.
Qed.

(** Properties C39, C40, C47-C50, C61-C66: Buffer classes. *)
From Verif Require Import Base BaseProofs IntCodec CodecSpec Stream Marshal FieldSpec Range RangeSpec IoBuffer IoSpec Serialize SerializeSpec
  RefEngine RefSpec BufferModel BufferSpec BufferMacros BufferCodecSpec
  BufferPack BufferDep BufferErrors BufferClass BufferNested BufferBuilders BufferConds BufferExamples.
From Coq Require Import ZArith List Bool String Lia.
Import ListNotations.
Open Scope string_scope.
Open Scope list_scope.
Open Scope Z_scope.

(** ** C39.  What pack() writes: there is a part for each field, nothing if its condition evaluated
    to false, otherwise the packed value and the position its references evaluated to.  The bytes
    returned are those parts put at their positions, the later ones over the earlier ones; they end
    at the largest stop and are filled up to the declared size. *)
Theorem C39_pack_writes_fields : forall C o bytes o', Forall predefined (k_fields C) -> buffer_pack C o = (Ok bytes, o') ->
  exists ps m bits, packing C (numbered C) [] (mkBst o None) ps m (mkBst o' None)
    /\ Forall2 (fun q p => part_of m (fst q) (snd q) p) (numbered C) ps
    /\ Forall part_fits ps /\ output_of ps bits
    /\ ~ too_long (k_size C) (bytes_of_bits bits) /\ bytes = sized (k_size C) (bytes_of_bits bits).
Proof.
  intros C o bytes o' Hp H. destruct (buffer_pack_ok C o bytes o' (predefined_packers C Hp) H) as (ps & m & bits & A & B).
  exists ps, m, bits. split; [exact A|]. split; [exact (packing_parts C _ _ _ _ _ _ A)|exact B].
Qed.
Print Assumptions C39_pack_writes_fields.

(** Overlapping positions: b is packed after a. *)
Definition overlap_fields : list field :=
  [int_field HostLittle BBig false None (packet_kw "a" 1 1 None); int_field HostLittle BBig false None (packet_kw "b" 2 2 None)].
Definition overlap_users : list uref := [UConst (rbool true); UByteSlice (num 1) (num 3); UByteSlice (num 2) (num 4)].
Example C39_nonvacuous :
  match make_class overlap_fields overlap_users with
  | Ok C => Forall predefined (k_fields C) /\ fst (buffer_pack C [("a", VInt 258); ("b", VInt 772)]) = Ok [0; 1; 3; 4]
  | Err _ => False
  end.
Proof. rewrite (make_class_by _ _ (Some 32)) by (vm_compute; reflexivity). split; [repeat constructor|vm_compute; reflexivity]. Qed.
Example C39_nonvacuous_packet :
  Forall predefined (k_fields (packet HostLittle))
  /\ fst (buffer_pack (packet HostLittle) [("data", VBytes [7; 8; 9]); ("crc", VInt 513)]) = Ok [0; 0; 0; 11; 0; 3; 7; 8; 9; 2; 1].
Proof. split; [repeat constructor|vm_compute; reflexivity]. Qed.

(** ** C40.  A class whose fields have fixed places without common bits: whatever its fields can
    store is restored, from any input that begins with the bytes that were packed. *)
Theorem C40_fixed_layout_roundtrip : forall fl ul C lay o,
  cls_ok (mkCls fl ul None) -> make_class fl ul = Ok C ->
  Forall2 (fun f x => slot C f (fst x) (snd x)) fl lay -> apart (map fst lay) ->
  NoDup (map f_name fl) -> has_values o fl lay ->
  exists n, k_size C = Some n /\ largest_stop (List.concat (map fst lay)) n
  /\ exists bytes o', buffer_pack C o = (Ok bytes, o') /\ bytes_ok bytes /\ zlen bytes = (n + 7) / 8
     /\ (forall m, Marshal.lookup o' m = Marshal.lookup o m)
     /\ forall b tail o2, buf_ok b -> buf_bits b = bits_of_bytes bytes ++ tail ->
        exists o'', buffer_unpack C b o2 = (Ok n, o'') /\ has_values o'' fl lay /\ only_fields_changed C o2 o''.
Proof. exact fixed_roundtrip. Qed.
Print Assumptions C40_fixed_layout_roundtrip.

(** Bit fields, one of them in two places: every object is restored. *)
Example C40_nonvacuous : forall h lo mid tail, 0 <= lo < 16 -> 0 <= mid < 32 -> 0 <= tail < 256 ->
  exists bytes o', buffer_pack (bits_class h) [("lo", VInt lo); ("mid", VInt mid); ("tail", VInt tail)] = (Ok bytes, o') /\ zlen bytes = 3
    /\ forall o2, exists o'', buffer_unpack (bits_class h) (BArr bytes) o2 = (Ok 17, o'')
       /\ Marshal.lookup o'' "lo" = Some (VInt lo) /\ Marshal.lookup o'' "mid" = Some (VInt mid) /\ Marshal.lookup o'' "tail" = Some (VInt tail).
Proof.
  intros h lo mid tail Hl Hm Ht.
  destruct (C40_fixed_layout_roundtrip (bits_fields h) bits_users (bits_class h) (combine bits_places [VInt lo; VInt mid; VInt tail])
    [("lo", VInt lo); ("mid", VInt mid); ("tail", VInt tail)]) as (n & N & _ & bytes & o' & P & B & L & _ & U).
  - class_ok.
  - apply bits_made.
  - now apply bits_slots.
  - exact bits_apart.
  - repeat constructor; cbn; intuition discriminate.
  - repeat constructor.
  - injection N as <-. exists bytes, o'. split; [exact P|]. split; [exact L|]. intros o2.
    destruct (U (BArr bytes) [] o2 B) as (o'' & U1 & U2 & _); [now rewrite app_nil_r|]. exists o''. split; [exact U1|].
    inversion U2 as [|? ? ? ? V1 U3]; subst. inversion U3 as [|? ? ? ? V2 U4]; subst. inversion U4 as [|? ? ? ? V3 _]; subst. auto.
Qed.
Example C40_nonvacuous_bytes : fst (buffer_pack (bits_class HostLittle) [("lo", VInt 5); ("mid", VInt 26); ("tail", VInt 200)]) = Ok [165; 200; 1].
Proof. vm_compute. reflexivity. Qed.

(** ** C47.  Sizes: with a known size (other than 0) pack() gives exactly that many bytes, rounded
    up, and unpack() returns it. *)
Theorem C47_packed_size : forall C n, Forall predefined (k_fields C) -> k_size C = Some n -> n <> 0 ->
  (forall o bytes o', buffer_pack C o = (Ok bytes, o') -> zlen bytes = (n + 7) / 8)
  /\ forall b o k o', buf_ok b -> buffer_unpack C b o = (Ok k, o') -> k = n.
Proof.
  intros C n Hp Hn N. split.
  - intros o bytes o' H. exact (packed_length C n o bytes o' (predefined_packers C Hp) Hn N H).
  - intros b o k o' Kb H. destruct (buffer_unpack_ok C b o k o' Kb H) as (A & _). auto.
Qed.
Print Assumptions C47_packed_size.

(** A class made by the metaclass: its size is the largest stop if all positions are constant, and
    then (0 included) pack() gives exactly that many bytes. *)
Theorem C47_class_size : forall fl ul C, cls_ok (mkCls fl ul None) -> Forall predefined fl -> make_class fl ul = Ok C ->
  k_fields C = fl /\ k_users C = ul
  /\ match k_size C with
     | Some n => (exists pos, static_places C (numbered C) pos /\ largest_stop (List.concat pos) n
                   /\ forall r, In r (List.concat pos) -> r_stop r <> None)
                 /\ forall o bytes o', buffer_pack C o = (Ok bytes, o') -> zlen bytes = (n + 7) / 8
     | None => exists i f, nth_error fl i = Some f
          /\ ((forall v, ~ static (nodes C) (mkRid KPackPos i) v) \/ (forall v, ~ static (nodes C) (mkRid KUnpackPos i) v))
     end.
Proof.
  intros fl ul C Hok Hp Hm. destruct (make_class_spec fl ul C Hok Hm) as (E1 & E2 & K). split; [exact E1|]. split; [exact E2|].
  destruct (k_size C) as [n|] eqn:N; [|exact K]. split; [exact K|]. intros o.
  assert (Hp' : packers_ok C) by (apply predefined_packers; now rewrite E1). exact (proj1 (class_pack fl ul C n Hok Hp' Hm N o)).
Qed.
Print Assumptions C47_class_size.
Example C47_nonvacuous : make_class (bits_fields HostLittle) bits_users = Ok (bits_class HostLittle) /\ k_size (bits_class HostLittle) = Some 17
  /\ make_class (packet_fields HostLittle) packet_users = Ok (packet HostLittle) /\ k_size (packet HostLittle) = None.
Proof. split; [apply bits_made|]. split; [reflexivity|]. split; [apply packet_made|reflexivity]. Qed.

(** ** C48.  Layouts that depend on values: positions, values and conditions may depend on other
    fields' values and ends and on the total size, as long as the dependencies have no cycle. *)
Theorem C48_dependent_layout_roundtrip : forall C lay o n,
  cls_ok C -> class_layout C lay o -> apart (places lay) -> layout_size C lay n -> NoDup (map f_name (k_fields C)) ->
  exists bytes o', buffer_pack C o = (Ok bytes, o') /\ bytes_ok bytes
    /\ (exists m, largest_stop (List.concat (places lay)) m
        /\ zlen bytes = (Z.max m (match k_size C with Some k => k | None => 0 end) + 7) / 8)
    /\ same_but_assigned C o o'
    /\ (forall i f e, nth_error (k_fields C) i = Some f -> nth_error lay i = Some (Some e) -> Marshal.lookup o' (f_name f) = Some (e_value e))
    /\ forall b tail o2, buf_ok b -> buf_bits b = bits_of_bytes bytes ++ tail ->
       (forall i e, nth_error lay i = Some (Some e) -> open_until (e_read e) (e_place e) (fun _ _ => 8 * ((zlen (buf_bits b) + 7) / 8))) ->
       exists o'', buffer_unpack C b o2 = (Ok n, o'') /\ holds_layout o'' (k_fields C) lay /\ only_fields_changed C o2 o''.
Proof. exact layout_roundtrip. Qed.
Print Assumptions C48_dependent_layout_roundtrip.

(** A payload behind its length: every payload that fits is restored, whatever follows it. *)
Theorem C48_length_prefix_roundtrip : forall h e s l o, struct_width e s -> zlen l < 2 ^ (8 * width_in_bytes s) -> bytes_ok l ->
  Marshal.lookup o "f_str" = Some (VBytes l) ->
  exists bytes o', buffer_pack (prefix_class h e s) o = (Ok bytes, o') /\ zlen bytes = width_in_bytes s + zlen l
    /\ Marshal.lookup o' "f_int" = Some (VInt (zlen l)) /\ Marshal.lookup o' "f_str" = Some (VBytes l)
    /\ forall rest o2, bytes_ok rest -> exists o'', buffer_unpack (prefix_class h e s) (BArr (bytes ++ rest)) o2 = (Ok (8 * zlen bytes), o'')
       /\ Marshal.lookup o'' "f_int" = Some (VInt (zlen l)) /\ Marshal.lookup o'' "f_str" = Some (VBytes l).
Proof. exact prefix_roundtrip. Qed.
Print Assumptions C48_length_prefix_roundtrip.
(** A total size, a length, a payload and a field after the payload. *)
Theorem C48_packet_roundtrip : forall h l crc o, zlen l < 65536 -> bytes_ok l -> 0 <= crc < 65536 -> Marshal.lookup o "data" = Some (VBytes l) ->
  Marshal.lookup o "crc" = Some (VInt crc) ->
  exists bytes o', buffer_pack (packet h) o = (Ok bytes, o') /\ zlen bytes = 8 + zlen l
    /\ Marshal.lookup o' "length" = Some (VInt (zlen l)) /\ Marshal.lookup o' "total" = Some (VInt (zlen bytes))
    /\ forall rest o2, bytes_ok rest -> exists o'', buffer_unpack (packet h) (BArr (bytes ++ rest)) o2 = (Ok (8 * zlen bytes), o'')
       /\ Marshal.lookup o'' "data" = Some (VBytes l) /\ Marshal.lookup o'' "crc" = Some (VInt crc)
       /\ Marshal.lookup o'' "length" = Some (VInt (zlen l)) /\ Marshal.lookup o'' "total" = Some (VInt (zlen bytes)).
Proof. exact packet_roundtrip. Qed.
Print Assumptions C48_packet_roundtrip.
Example C48_nonvacuous :
  fst (buffer_pack (prefix_class HostLittle BBig I16) [("f_str", VBytes [104; 105])]) = Ok [0; 2; 104; 105]
  /\ buffer_unpack (prefix_class HostLittle BBig I16) (BArr [0; 2; 104; 105; 9; 9]) [] = (Ok 32, [("f_int", VInt 2); ("f_str", VBytes [104; 105])]).
Proof. split; vm_compute; reflexivity. Qed.

(** ** C49.  Errors.  What pack() raises is InstructBufferError, unless evaluating a pack_if raises,
    or the packed bytes are longer than byte_size. *)
Theorem C49_pack_errors : forall C o e o', cls_ok C -> Forall predefined (k_fields C) -> buffer_pack C o = (Err e, o') ->
  e = InstructBufferError \/ no_exception e
  \/ (exists pre i f post ps m s, numbered C = pre ++ (i, f) :: post /\ packing C pre [] (mkBst o None) ps m s /\ fails C (f_pack_if f) m s e)
  \/ (e = AssertionError /\ exists ps m bits, packing C (numbered C) [] (mkBst o None) ps m (mkBst o' None)
        /\ Forall part_fits ps /\ output_of ps bits /\ too_long (k_size C) (bytes_of_bits bits)).
Proof. intros C o e o' Hok Hp H. exact (buffer_pack_err C o e o' Hok (predefined_packers C Hp) H). Qed.
Print Assumptions C49_pack_errors.
(** What unpack() raises is InstructBufferError, unless all fields were unpacked and then computing
    the total size raises. *)
Theorem C49_unpack_errors : forall C b o e o', cls_ok C -> buf_ok b -> buffer_unpack C b o = (Err e, o') ->
  e = InstructBufferError \/ no_exception e
  \/ exists input m s, input_buffer b = Ok input /\ unpacking C (numbered C) [] (mkBst o (Some input)) m s /\ fails C (mkRid KTotal 0) m s e.
Proof. exact buffer_unpack_err. Qed.
Print Assumptions C49_unpack_errors.
(** So only InstructBufferError can escape from a class of known size whose pack conditions are
    constant (the default). *)
Theorem C49_only_instruct_errors : forall fl ul C n, cls_ok (mkCls fl ul None) -> Forall predefined fl -> make_class fl ul = Ok C -> k_size C = Some n ->
  Forall (fun f => exists c, static (nodes C) (f_pack_if f) c) fl ->
  (forall o e o', buffer_pack C o = (Err e, o') -> e = InstructBufferError \/ no_exception e)
  /\ forall b o e o', buf_ok b -> buffer_unpack C b o = (Err e, o') -> e = InstructBufferError \/ no_exception e.
Proof.
  intros fl ul C n Hok Hp Hm Hn Hc. destruct (make_class_spec fl ul C Hok Hm) as (E1 & E2 & _).
  assert (HokC : cls_ok C). { destruct C as [a b k]. cbn [k_fields k_users] in E1, E2. subst. exact (cls_ok_size fl ul None k Hok). }
  assert (Hp' : packers_ok C) by (apply predefined_packers; now rewrite E1). split.
  - intros o e o' H. destruct (proj2 (class_pack fl ul C n Hok Hp' Hm Hn o) e o' H) as [G|[G|(pre & i & f & post & ps & m & s & N & P & F)]]; auto.
    exfalso. assert (Hf : In f fl). { rewrite <- E1. assert (In (i, f) (numbered C)) as Hin by (rewrite N; apply in_or_app; right; now left).
      apply BufferFacts.numbered_in in Hin. eapply nth_error_In; eauto. }
    destruct (proj1 (Forall_forall _ _) Hc f Hf) as (c & Sc). apply (constant_not_fails C _ _ _ _ _ Sc) in F; [exact F|].
    apply (packing_agree _ _ _ _ _ _ _ P). apply RefStatic.agree_nil.
  - intros b o e o' Kb H. destruct (buffer_unpack_err C b o e o' HokC Kb H) as [G|[G|(input & m & s & _ & _ & F)]]; auto.
    exfalso. exact (total_not_fails C n m s e Hn F).
Qed.
Print Assumptions C49_only_instruct_errors.
Example C49_nonvacuous : exists C n, make_class overlap_fields overlap_users = Ok C /\ k_size C = Some n
  /\ Forall (fun f => exists c, static (nodes C) (f_pack_if f) c) overlap_fields
  /\ fst (buffer_pack C [("a", VInt 258)]) = Err InstructBufferError
  /\ fst (buffer_pack C [("a", VInt 258); ("b", VInt 65536)]) = Err InstructBufferError
  /\ fst (buffer_unpack C (BArr [1; 2; 3]) []) = Err InstructBufferError.
Proof.
  eexists. exists 32. split; [apply make_class_by; vm_compute; reflexivity|]. split; [reflexivity|]. split.
  - assert (S : exists c, static (nodes (mkCls overlap_fields overlap_users (Some 32))) (user 0) c).
    { eexists. eapply pure_ev; [reflexivity|]. apply pure_ret_by. reflexivity. }
    repeat (apply Forall_cons; [exact S|]). apply Forall_nil.
  - repeat split; vm_compute; reflexivity.
Qed.
(** Other classes: a condition that raises (here AttributeError); a byte-array field of 12 bits, which
    uses 16, in a class of unknown size (AssertionError); bytes longer than a byte_size given in the
    class body (AssertionError). *)
Definition escape_if : cls :=
  mkCls [int_field HostLittle BBig false None (mkKw "a" VNone (user 0) (user 0) (user 1) (user 1) None None [])]
    [UByteSlice (num 0) (num 1); UAttr "missing"] (Some 8).
Definition escape_total : cls :=
  mkCls [bytearray_field (packet_kw "a" 2 2 None); bytearray_field (packet_kw "b" 3 3 None)]
    [UConst (rbool true); UByteSlice (num 0) (num 2); UBitSlice (user 1) (num 0) (num 12); UByteSlice (num 2) (AConst (RVal VNone))] None.
Definition escape_long : cls :=
  mkCls [int_field HostLittle BBig false None (packet_kw "a" 1 1 None)] [UConst (rbool true); UByteSlice (num 0) (num 4)] (Some 16).
Theorem C49_other_errors_refuted :
  (make_class (k_fields escape_if) (k_users escape_if) = Ok escape_if
   /\ fst (buffer_pack escape_if [("a", VInt 1)]) = Err AttributeError)
  /\ (make_class (k_fields escape_total) (k_users escape_total) = Ok escape_total
      /\ fst (buffer_unpack escape_total (BArr [1; 2; 3]) []) = Err AssertionError)
  /\ fst (buffer_pack escape_long [("a", VInt 1)]) = Err AssertionError.
Proof. split; [split; [apply make_class_by; vm_compute; reflexivity|vm_compute; reflexivity]|]. split; [split; [apply make_class_by; vm_compute; reflexivity|vm_compute; reflexivity]|vm_compute; reflexivity]. Qed.
Print Assumptions C49_other_errors_refuted.

(** ** C50.  Conditional fields.  Packing: C39 says that a field whose condition is false contributes
    nothing.  Unpacking: the condition of every field is evaluated; if it is true the field is
    unpacked, otherwise its attribute is None afterwards unless something else needed its value. *)
Theorem C50_unpack_conditions : forall C b o n o', plain C -> NoDup (map f_name (k_fields C)) -> buf_ok b -> buffer_unpack C b o = (Ok n, o') ->
  exists input m s m' s', input_buffer b = Ok input /\ unpacking C (numbered C) [] (mkBst o (Some input)) m s
    /\ eval rid_eqb (nodes C) (mkRid KTotal 0) m s (Ok (rnum n)) m' s' /\ o' = s_obj s'
    /\ forall i f, nth_error (k_fields C) i = Some f -> exists c, RefEngine.lookup rid_eqb (f_unpack_if f) m' = Some c
       /\ (truthy c = true -> exists v, RefEngine.lookup rid_eqb (mkRid KUnpackValue i) m' = Some v)
       /\ (truthy c = false -> Marshal.lookup o' (f_name f) = Some VNone
             \/ exists v, RefEngine.lookup rid_eqb (mkRid KUnpackValue i) m' = Some v).
Proof. exact unpack_skips. Qed.
Print Assumptions C50_unpack_conditions.
(** An optional field is restored if the flag says so, otherwise it is None. *)
Theorem C50_conditional_roundtrip : forall h flag x o, 0 <= flag < 256 -> 0 <= x < 65536 -> Marshal.lookup o "flag" = Some (VInt flag) ->
  (flag <> 0 -> Marshal.lookup o "opt" = Some (VInt x)) ->
  exists bytes o', buffer_pack (opt_class h) o = (Ok bytes, o') /\ zlen bytes = 3
    /\ forall rest o2, bytes_ok rest -> exists o'', buffer_unpack (opt_class h) (BArr (bytes ++ rest)) o2 = (Ok 24, o'')
       /\ Marshal.lookup o'' "flag" = Some (VInt flag) /\ Marshal.lookup o'' "opt" = Some (if flag =? 0 then VNone else VInt x).
Proof. exact opt_roundtrip. Qed.
Print Assumptions C50_conditional_roundtrip.
Example C50_nonvacuous : plain (opt_class HostLittle)
  /\ fst (buffer_pack (opt_class HostLittle) [("flag", VInt 0); ("opt", VInt 772)]) = Ok [0; 0; 0]
  /\ fst (buffer_pack (opt_class HostLittle) [("flag", VInt 2); ("opt", VInt 772)]) = Ok [2; 3; 4]
  /\ buffer_unpack (opt_class HostLittle) (BArr [0; 3; 4]) [("flag", VInt 9); ("opt", VInt 9)] = (Ok 24, [("flag", VInt 0); ("opt", VNone)])
  /\ buffer_unpack (opt_class HostLittle) (BArr [1; 3; 4]) [("flag", VInt 9); ("opt", VInt 9)] = (Ok 24, [("flag", VInt 1); ("opt", VInt 772)]).
Proof.
  split; [|repeat split; vm_compute; reflexivity]. split; [repeat constructor|].
  repeat (apply Forall_cons; [unfold plain_field, plain_rid; cbn; intuition constructor|]). apply Forall_nil.
Qed.
(** A field whose condition is false and whose value another field needs (here for its position) is
    unpacked after it was set to None. *)
Definition needed_class : cls :=
  mkCls [int_field HostLittle BBig false None (mkKw "a" VNone (user 1) (user 1) (user 0) (user 2) None None []);
         bytearray_field (packet_kw "b" 4 4 None)]
    [UConst (rbool true); UByteSlice (num 0) (num 1); UConst (rbool false); UNum OpAdd (num 1) (ARef (mkRid KField 0));
     UByteSlice (num 1) (ARef (user 3))] None.
Theorem C50_skipped_field_none_refuted :
  make_class (k_fields needed_class) (k_users needed_class) = Ok needed_class
  /\ buffer_unpack needed_class (BArr [1; 5]) [("a", VNone); ("b", VNone)] = (Ok 16, [("a", VInt 1); ("b", VBytes [5])]).
Proof. split; [apply make_class_by; vm_compute; reflexivity|vm_compute; reflexivity]. Qed.
Print Assumptions C50_skipped_field_none_refuted.

(** ** C61.  Objects inside objects.  What a class packs as above can be a field or a list element of
    another class ([BufferCodecSpec.stores]): a layout that is read from its own places is restored from
    any input that begins with its bytes, one that is read to the end from exactly its bytes. *)
Theorem C61_nested_from_prefix : forall C lay o n nm, cls_ok C -> class_layout C lay o -> apart (places lay) -> layout_size C lay n ->
  NoDup (map f_name (k_fields C)) -> instance C o -> holds_layout o (k_fields C) lay ->
  (forall e, In (Some e) lay -> e_read e = e_place e) ->
  exists bytes m, largest_stop (List.concat (places lay)) m /\ zlen bytes = (Z.max m (match k_size C with Some k => k | None => 0 end) + 7) / 8
    /\ restores_prefix nm C o bytes n.
Proof. exact layout_restores_prefix. Qed.
Print Assumptions C61_nested_from_prefix.
Theorem C61_nested_exact : forall C lay o n nm m, cls_ok C -> class_layout C lay o -> apart (places lay) -> layout_size C lay n ->
  NoDup (map f_name (k_fields C)) -> instance C o -> holds_layout o (k_fields C) lay ->
  largest_stop (List.concat (places lay)) m ->
  (forall e, In (Some e) lay -> open_until (e_read e) (e_place e) (fun _ _ => 8 * ((Z.max m (match k_size C with Some k => k | None => 0 end) + 7) / 8))) ->
  exists bytes, zlen bytes = (Z.max m (match k_size C with Some k => k | None => 0 end) + 7) / 8 /\ restores_exact nm C o bytes n.
Proof. exact layout_restores_exact. Qed.
Print Assumptions C61_nested_exact.
(** A counted list of objects: lists of any length are restored. *)
Theorem C61_list_of_objects_roundtrip : forall h l o, zlen l < 2 ^ 32 -> Forall (fun p => 0 <= fst p < 65536 /\ - 32768 <= snd p < 32768) l ->
  Marshal.lookup o "points" = Some (points_of l) ->
  exists bytes o', buffer_pack (path h) o = (Ok bytes, o') /\ zlen bytes = 4 + 4 * zlen l
    /\ forall o2, exists o'', buffer_unpack (path h) (BArr bytes) o2 = (Ok (8 * zlen bytes), o'')
       /\ Marshal.lookup o'' "count" = Some (VInt (zlen l)) /\ Marshal.lookup o'' "points" = Some (points_of l).
Proof. exact path_roundtrip. Qed.
Print Assumptions C61_list_of_objects_roundtrip.
Example C61_nonvacuous :
  (exists bytes, zlen bytes = 4 /\ restores_prefix "Point" (point HostLittle) (point_at 258 (-2)) bytes 32)
  /\ fst (buffer_pack (path HostLittle) [("points", points_of [(258, -2); (3, 4)])]) = Ok [2; 0; 0; 0; 1; 2; 255; 254; 0; 3; 0; 4].
Proof. split; [apply point_restores; lia|vm_compute; reflexivity]. Qed.

(** ** C62.  Construction: keyword arguments must name fields; the other fields get their default. *)
Theorem C62_construction : forall C kwargs, NoDup (map f_name (k_fields C)) ->
  (Forall (fun p => In (fst p) (map f_name (k_fields C))) kwargs /\ exists o, buffer_init C kwargs = Ok o
     /\ forall f, In f (k_fields C) -> Marshal.lookup o (f_name f) = Some (match Marshal.lookup (rev kwargs) (f_name f) with
                                                                  | Some v => v | None => f_default f end))
  \/ (Exists (fun p => ~ In (fst p) (map f_name (k_fields C))) kwargs /\ buffer_init C kwargs = Err AssertionError).
Proof. exact init_spec. Qed.
Print Assumptions C62_construction.
Example C62_nonvacuous : buffer_init (point HostLittle) [("y", VInt 3)] = Ok [("y", VInt 3); ("x", VNone)]
  /\ buffer_init (point HostLittle) [("z", VInt 3)] = Err AssertionError.
Proof. split; reflexivity. Qed.

(** ** C63.  Base classes: the size of a subclass is computed from its own fields only, so a field of
    the base class behind them makes pack() fail, and unpack() returns the size of the own fields. *)
Theorem C63_subclass_never_packs : forall own inherited ul C n i f r e,
  make_subclass own inherited ul = Ok C -> Forall predefined (own ++ inherited) -> k_size C = Some n -> n <> 0 ->
  nth_error (own ++ inherited) i = Some f -> (exists c, static (nodes C) (f_pack_if f) c /\ truthy c = true) ->
  static (nodes C) (mkRid KPackPos i) (RRanges r) -> (exists x, In x r /\ r_stop x = Some e) -> 8 * ((n + 7) / 8) < e ->
  forall o bytes o', buffer_pack C o <> (Ok bytes, o').
Proof.
  intros own inherited ul C n i f r e Hm Hp Hn N Hf Hc Hs Hx He o bytes o'.
  assert (E : k_fields C = own ++ inherited). { unfold make_subclass in Hm. destruct (static_size _ _ _ _); cbn [rbind] in Hm; [|discriminate]. now injection Hm as <-. }
  apply (pack_behind_size C n i f r e); auto; [apply predefined_packers; now rewrite E|now rewrite E].
Qed.
Print Assumptions C63_subclass_never_packs.
(** The size is that of the own fields: the largest end among their static positions.  It is unknown
    exactly if a position of an own field is not static. *)
Theorem C63_own_size : forall own inherited ul C, cls_ok (mkCls (own ++ inherited) ul None) -> make_subclass own inherited ul = Ok C ->
  k_fields C = own ++ inherited
  /\ match k_size C with
     | Some n => exists pos, static_places C (firstn (List.length own) (numbered C)) pos /\ largest_stop (List.concat pos) n
     | None => exists i f, nth_error own i = Some f
          /\ ((forall v, ~ static (nodes C) (mkRid KPackPos i) v) \/ (forall v, ~ static (nodes C) (mkRid KUnpackPos i) v))
     end.
Proof.
  intros own inherited ul C Hok Hm. destruct (make_subclass_spec own inherited ul C Hok Hm) as (E & _ & H). split; [exact E|].
  destruct (k_size C); [|exact H]. destruct H as (pos & H1 & H2 & _). eauto.
Qed.
Print Assumptions C63_own_size.
Definition sub_own : field := int_field HostLittle BBig false None (packet_kw "own" 1 1 None).
Definition sub_base : field := int_field HostLittle BBig false None (packet_kw "base" 2 2 None).
Definition sub_users : list uref := [UConst (rbool true); UByteSlice (num 0) (num 2); UByteSlice (num 2) (num 4)].
Definition sub_class : cls := mkCls [sub_own; sub_base] sub_users (Some 16).
Example C63_nonvacuous :
  make_subclass [sub_own] [sub_base] sub_users = Ok sub_class
  /\ make_class [sub_own; sub_base] sub_users = Ok (mkCls [sub_own; sub_base] sub_users (Some 32))
  /\ (forall o bytes o', buffer_pack sub_class o <> (Ok bytes, o'))
  /\ fst (buffer_pack sub_class [("own", VInt 1); ("base", VInt 2)]) = Err AssertionError
  /\ buffer_unpack sub_class (BArr [0; 1; 0; 2]) [] = (Ok 16, [("own", VInt 1); ("base", VInt 2)]).
Proof.
  assert (M : make_subclass [sub_own] [sub_base] sub_users = Ok sub_class).
  { unfold make_subclass. assert (E : static_size (mkCls ([sub_own] ++ [sub_base]) sub_users None)
      (firstn 1 (numbered (mkCls ([sub_own] ++ [sub_base]) sub_users None))) new_ctx [] = Ok (Some 16)) by (vm_compute; reflexivity).
    cbn [List.length]. rewrite E. reflexivity. }
  split; [exact M|]. split; [apply make_class_by; vm_compute; reflexivity|]. split; [|split; vm_compute; reflexivity].
  apply (C63_subclass_never_packs [sub_own] [sub_base] sub_users sub_class 16 1 sub_base [mkR 16 (Some 32)] 32 M); [repeat constructor|reflexivity|lia|reflexivity| | | |].
  - exists (rbool true). split; [|reflexivity]. eapply pure_ev; [reflexivity|]. apply pure_ret_by. reflexivity.
  - assert (S : static (nodes sub_class) (user 2) (RRanges [mkR 16 (Some 32)])) by (eapply pure_ev; [reflexivity|]; apply pure_ret_by; reflexivity).
    destruct S as (k & S). eexists. constructor.
    change (nodes sub_class (mkRid KPackPos 1)) with (pack_pos sub_base 1). unfold pack_pos.
    eapply pure_ref; [exact S|]. cbv beta. apply pure_ret_by. reflexivity.
  - exists (mkR 16 (Some 32)). split; [now left|reflexivity].
  - reflexivity.
Qed.

(** Property C108: what pack() and unpack() leave in the object when they raise. *)
From Verif Require Import Base BaseProofs IntCodec CodecSpec Stream Marshal FieldSpec Range RangeSpec RangeFacts RangeArith IoBuffer IoSpec IoProofs IoFacts FieldFacts
  Serialize SerializeSpec SerializeFacts RefEngine RefSpec RefProofs RefStatic RefSteady
  BufferModel BufferSpec BufferMacros BufferReadSpec BufferFacts BufferErrors BufferClass BufferConds BufferHooks BufferReads BufferExamples BufferFailSpec BufferFail PropertiesHooks PropertiesReads.
From Coq Require Import ZArith List Bool String Lia ZifyBool ZifyNat.
Import ListNotations.
Open Scope string_scope.
Open Scope list_scope.
Open Scope Z_scope.

(** ** C108.  pack() and unpack() change nothing but attributes of fields, and add no attribute to an
    object that has all of these, whether they return or raise. *)
Theorem C108_only_fields : forall C o b r o', functions_assign_fields C ->
  (exists x, buffer_pack C o = (x, o')) \/ buffer_unpack C b o = (r, o') -> only_fields_changed C o o'.
Proof.
  intros C o b r o' H [(x & E)|E]; [exact (pack_only C H o x o' E)|exact (unpack_only C H b o r o' E)].
Qed.
Print Assumptions C108_only_fields.

(** A pack() that returns or raises has changed at most attributes with set_before_pack: each of them
    is what it was, or what set_before_pack gives for it. *)
Theorem C108_pack_assigns : forall C o r o', plain C -> NoDup (map f_name (k_fields C)) -> quiet_before C ->
  buffer_pack C o = (r, o') ->
  same_but_assigned C o o'
  /\ forall f, In f (k_fields C) -> Marshal.lookup o' (f_name f) = Marshal.lookup o (f_name f)
       \/ exists v, Marshal.lookup o' (f_name f) = Some v /\ computed_for C o f v.
Proof. intros C o r o' Hp Hn Hq. exact (pack_computed C Hp Hn Hq o r o'). Qed.
Print Assumptions C108_pack_assigns.

(** Fields at fixed places are packed in their order.  If the first [i] can be packed and the next one cannot, because its
    attribute is missing or because of its value, then pack() raises InstructBufferError; the values of
    the first [i] are in the object, and only attributes with set_before_pack of these fields and of the next one have changed. *)
Theorem C108_pack_stops : forall C o i f e lay, cls_ok C -> NoDup (map f_name (k_fields C)) ->
  Forall2 (can_pack C o) (firstn i (k_fields C)) lay -> nth_error (k_fields C) i = Some f -> cannot_pack C o f e -> ~ no_exception e ->
  exists o', buffer_pack C o = (Err InstructBufferError, o') /\ has_values o' (firstn i (k_fields C)) lay
    /\ forall n, (forall g, In g (firstn (S i) (k_fields C)) -> f_before g <> None -> f_name g <> n) -> Marshal.lookup o' n = Marshal.lookup o n.
Proof.
  intros C o i f e lay H1 H2 H3 H4 H5 H6. destruct (pack_stops C o i f e lay H1 H2 H3 H4 H5) as (o' & E & R). exists o'. split; [|exact R].
  rewrite E. f_equal. f_equal. unfold no_exception in H6. destruct e; try reflexivity; tauto.
Qed.
Print Assumptions C108_pack_stops.

(** Fields at fixed places are read in their order.  If the first [i] can be read and the next one
    cannot, then unpack() raises InstructBufferError; the attributes of the first [i] have been assigned, and all
    others are what they were. *)
Theorem C108_unpack_stops : forall C b o i f r e lay, cls_ok C -> NoDup (map f_name (k_fields C)) -> buf_ok b -> after_in_front C i ->
  Forall2 (fun f x => always_at C f (fst x) /\ decodes C b f (fst x) (snd x)) (firstn i (k_fields C)) lay ->
  nth_error (k_fields C) i = Some f -> always_at C f r -> rejects C b f r e -> ~ no_exception e ->
  exists o', buffer_unpack C b o = (Err InstructBufferError, o') /\ has_values o' (firstn i (k_fields C)) lay
    /\ forall n, ~ In n (map f_name (firstn i (k_fields C))) -> Marshal.lookup o' n = Marshal.lookup o n.
Proof.
  intros C b o i f r e lay H1 H2 H3 H4 H5 H6 H7 H8 H9. destruct (unpack_stops C b o i f r e lay H1 H2 H3 H4 H5 H6 H7 H8) as (o' & E & R). exists o'. split; [|exact R].
  rewrite E. f_equal. f_equal. unfold no_exception in H9. destruct e; try reflexivity; tauto.
Qed.
Print Assumptions C108_unpack_stops.

(** In particular when the input ends within an integer of 1, 2, 4 or 8 bytes. *)
Theorem C108_truncated : forall C l o i h e signed s k a lay, cls_ok C -> NoDup (map f_name (k_fields C)) -> bytes_ok l -> after_in_front C i ->
  Forall2 (fun f x => always_at C f (fst x) /\ decodes C (BArr l) f (fst x) (snd x)) (firstn i (k_fields C)) lay ->
  nth_error (k_fields C) i = Some (int_field h e signed None k) -> 0 <= a ->
  always_at C (int_field h e signed None k) (byte_place a (a + width_in_bytes s)) -> zlen l < a + width_in_bytes s ->
  exists o', buffer_unpack C (BArr l) o = (Err InstructBufferError, o') /\ has_values o' (firstn i (k_fields C)) lay
    /\ forall n, ~ In n (map f_name (firstn i (k_fields C))) -> Marshal.lookup o' n = Marshal.lookup o n.
Proof.
  intros C l o i h e signed s k a lay H1 H2 H3 H4 H5 H6 H7 H8 H9.
  apply (C108_unpack_stops C (BArr l) o i _ _ AssertionError lay H1 H2 H3 H4 H5 H6 H8); [now apply int_rejects|]. intros [E|E]; discriminate E.
Qed.
Print Assumptions C108_truncated.

(** What is there can be read: the integer whose bytes are at that place. *)
Theorem C108_complete_integers : forall C l h e signed s k a, bytes_ok l -> struct_width e s -> 0 <= a -> a + width_in_bytes s <= zlen l ->
  exists z, decodes C (BArr l) (int_field h e signed None k) (byte_place a (a + width_in_bytes s)) (VInt z)
    /\ int_fits signed (8 * width_in_bytes s) z
    /\ forall j, 0 <= j < width_in_bytes s -> int_byte h e (width_in_bytes s) z j (nth (Z.to_nat (a + j)) l 0).
Proof. exact int_decodes. Qed.
Print Assumptions C108_complete_integers.

(** Whatever an earlier unpack() did, unpacking an input that can be read makes all attributes right. *)
Theorem C108_again : forall C b b2 o r o1 n lay, functions_assign_fields C -> cls_ok C -> NoDup (map f_name (k_fields C)) -> buf_ok b2 -> k_size C = Some n ->
  buffer_unpack C b o = (r, o1) ->
  Forall2 (fun f x => always_at C f (fst x) /\ decodes C b2 f (fst x) (snd x)) (k_fields C) lay ->
  exists o2, buffer_unpack C b2 o1 = (Ok n, o2) /\ has_values o2 (k_fields C) lay /\ only_fields_changed C o o2.
Proof. exact unpack_again. Qed.
Print Assumptions C108_again.

(** class Frame(Buffer):
        tag = be_uint_field(where=bytes_ref[0:2], set_before_pack=7)
        size = be_uint_field(where=bytes_ref[2:4], set_before_pack=lambda self: len(self.data))
        body = be_uint_field(where=bytes_ref[4:8]) *)
Definition frame_size : attrs -> res value * attrs :=
  fun o => (match Marshal.lookup o "data" with Some v => let* n := Marshal.py_len v in Ok (VInt n) | None => Err AttributeError end, o).
Definition frame_users : list uref := [UConst (rbool true); UByteSlice (num 0) (num 2); UByteSlice (num 2) (num 4); UByteSlice (num 4) (num 8)].
Definition frame_fields (h : host) : list field :=
  [int_field h BBig false None (packet_kw "tag" 1 1 (Some (BValue (VInt 7)))); int_field h BBig false None (packet_kw "size" 2 2 (Some (BFun frame_size)));
   int_field h BBig false None (packet_kw "body" 3 3 None)].
Definition frame_class (h : host) : cls := mkCls (frame_fields h) frame_users (Some 64).
Example C108_nonvacuous : forall h,
  make_class (frame_fields h) frame_users = Ok (frame_class h)
  /\ plain (frame_class h) /\ NoDup (map f_name (k_fields (frame_class h))) /\ quiet_before (frame_class h) /\ functions_assign_fields (frame_class h)
  /\ buffer_pack (frame_class h) [("tag", VInt 1); ("size", VNone); ("body", VStr [65]); ("data", VBytes [1; 2; 3])]
     = (Err InstructBufferError, [("tag", VInt 7); ("size", VInt 3); ("body", VStr [65]); ("data", VBytes [1; 2; 3])])
  /\ buffer_pack (frame_class h) [("tag", VInt 1); ("size", VNone); ("body", VStr [65])]
     = (Err InstructBufferError, [("tag", VInt 7); ("size", VNone); ("body", VStr [65])]).
Proof.
  intros h. split; [apply make_class_by; destruct h; vm_compute; reflexivity|]. split; [plain_class|]. split; [repeat constructor; cbn; intuition discriminate|].
  split; [repeat constructor|]. split; [split; [repeat constructor|]; repeat constructor|]. destruct h; vm_compute; auto.
Qed.
(** Frame with an input of 6 bytes: "body" needs 8. *)
Example C108_nonvacuous_truncated : forall h,
  cls_ok (frame_class h) /\ after_in_front (frame_class h) 2
  /\ Forall2 (fun f x => always_at (frame_class h) f (fst x) /\ decodes (frame_class h) (BArr [1; 2; 3; 4; 5; 6]) f (fst x) (snd x)) (firstn 2 (frame_fields h))
       [(byte_place 0 2, VInt 258); (byte_place 2 4, VInt 772)]
  /\ (exists f, nth_error (frame_fields h) 2 = Some f /\ always_at (frame_class h) f (byte_place 4 (4 + width_in_bytes I32)) /\ rejects (frame_class h) (BArr [1; 2; 3; 4; 5; 6]) f (byte_place 4 (4 + width_in_bytes I32)) AssertionError)
  /\ buffer_unpack (frame_class h) (BArr [1; 2; 3; 4; 5; 6]) [("tag", VInt 1); ("size", VNone); ("body", VInt 9); ("data", VBytes [1])]
     = (Err InstructBufferError, [("tag", VInt 258); ("size", VInt 772); ("body", VInt 9); ("data", VBytes [1])])
  /\ buffer_unpack (frame_class h) (BArr [0; 8; 0; 9; 0; 0; 1; 0]) [("tag", VInt 258); ("size", VInt 772); ("body", VInt 9); ("data", VBytes [1])]
     = (Ok 64, [("tag", VInt 8); ("size", VInt 9); ("body", VInt 256); ("data", VBytes [1])]).
Proof.
  intros h. assert (M : make_class (frame_fields h) frame_users = Ok (frame_class h)) by (apply make_class_by; destruct h; vm_compute; reflexivity).
  assert (T : exists c, static (nodes (frame_class h)) (user 0) c /\ truthy c = true).
  { exists (rbool true). split; [|reflexivity]. eapply pure_ev; [reflexivity|]. constructor. }
  assert (A : forall f k a b, f_where_unpack f = user k -> f_unpack_if f = user 0 -> f_after f = None ->
              static (nodes (frame_class h)) (user k) (RRanges (byte_place a b)) -> 0 <= a -> a <= b -> always_at (frame_class h) f (byte_place a b)).
  { intros f k a b H1 H2 H3 H4 Ha Hb. split; [now rewrite H1|]. split; [apply byte_place_proper; lia|]. split; [now rewrite H2|exact H3]. }
  assert (P1 : static (nodes (frame_class h)) (user 1) (RRanges (byte_place 0 2))) by (eapply pure_ev; [reflexivity|]; apply pure_ret_by; reflexivity).
  assert (P2 : static (nodes (frame_class h)) (user 2) (RRanges (byte_place 2 4))) by (eapply pure_ev; [reflexivity|]; apply pure_ret_by; reflexivity).
  assert (P3 : static (nodes (frame_class h)) (user 3) (RRanges (byte_place 4 8))) by (eapply pure_ev; [reflexivity|]; apply pure_ret_by; reflexivity).
  assert (B : bytes_ok [1; 2; 3; 4; 5; 6]) by (repeat constructor; lia).
  split; [destruct h; class_ok|].
  split; [intros j f Hj Hf; do 3 (destruct j as [|j]; [injection Hf as <-; constructor|]); lia|].
  split.
  - constructor; [|constructor; [|constructor]]; cbn [fst snd].
    + split; [apply (A _ 1%nat); first [reflexivity|assumption|lia]|].
      destruct (int_decodes (frame_class h) [1; 2; 3; 4; 5; 6] h BBig false I16 (packet_kw "tag" 1 1 (Some (BValue (VInt 7)))) 0 B) as (z & D & Z1 & Z2); [intros (X & _); discriminate X|lia|cbn; lia|].
      destruct (Z2 0) as (Y0 & _); [cbn; lia|]. destruct (Z2 1) as (Y1 & _); [cbn; lia|]. specialize (Y0 (or_introl eq_refl)). specialize (Y1 (or_introl eq_refl)).
      change (1 = (z / 256) mod 256) in Y0. change (2 = (z / 1) mod 256) in Y1. cbn in Z1. assert (z = 258) as ->; [lia|exact D].
    + split; [apply (A _ 2%nat); first [reflexivity|assumption|lia]|].
      destruct (int_decodes (frame_class h) [1; 2; 3; 4; 5; 6] h BBig false I16 (packet_kw "size" 2 2 (Some (BFun frame_size))) 2 B) as (z & D & Z1 & Z2); [intros (X & _); discriminate X|lia|cbn; lia|].
      destruct (Z2 0) as (Y0 & _); [cbn; lia|]. destruct (Z2 1) as (Y1 & _); [cbn; lia|]. specialize (Y0 (or_introl eq_refl)). specialize (Y1 (or_introl eq_refl)).
      change (3 = (z / 256) mod 256) in Y0. change (4 = (z / 1) mod 256) in Y1. cbn in Z1. assert (z = 772) as ->; [lia|exact D].
  - split; [|destruct h; vm_compute; auto]. eexists. split; [reflexivity|]. split; [apply (A _ 3%nat); first [reflexivity|assumption|cbn; lia]|].
    apply int_rejects; [exact B|lia|cbn; lia].
Qed.

(** Frame with a value for "body" that is no number, and without a value for it. *)
Example C108_nonvacuous_pack_stops : forall h o, o = [("tag", VInt 1); ("body", VStr [65]); ("data", VBytes [1; 2; 3])] \/ o = [("tag", VInt 1); ("data", VBytes [1; 2; 3])] ->
  Forall2 (can_pack (frame_class h) o) (firstn 2 (frame_fields h)) [(byte_place 0 2, VInt 7); (byte_place 2 4, VInt 3)]
  /\ exists f e, nth_error (frame_fields h) 2 = Some f /\ cannot_pack (frame_class h) o f e /\ ~ no_exception e.
Proof.
  intros h o Ho.
  assert (T : exists c, static (nodes (frame_class h)) (user 0) c /\ truthy c = true).
  { exists (rbool true). split; [|reflexivity]. eapply pure_ev; [reflexivity|]. constructor. }
  assert (A : forall f k a b, f_where_pack f = user k -> f_pack_if f = user 0 ->
              static (nodes (frame_class h)) (user k) (RRanges (byte_place a b)) -> 0 <= a -> a <= b -> always_to (frame_class h) f (byte_place a b)).
  { intros f k a b H1 H2 H4 Ha Hb. split; [now rewrite H1|]. split; [apply byte_place_proper; lia|now rewrite H2]. }
  assert (P1 : static (nodes (frame_class h)) (user 1) (RRanges (byte_place 0 2))) by (eapply pure_ev; [reflexivity|]; apply pure_ret_by; reflexivity).
  assert (P2 : static (nodes (frame_class h)) (user 2) (RRanges (byte_place 2 4))) by (eapply pure_ev; [reflexivity|]; apply pure_ret_by; reflexivity).
  assert (P3 : static (nodes (frame_class h)) (user 3) (RRanges (byte_place 4 8))) by (eapply pure_ev; [reflexivity|]; apply pure_ret_by; reflexivity).
  split.
  - constructor; [|constructor; [|constructor]]; (split; [first [apply (A _ 1%nat); first [reflexivity|assumption|cbn; lia]|apply (A _ 2%nat); first [reflexivity|assumption|cbn; lia]]|]).
    + split; [reflexivity|]. exists (BArr [0; 7]). split; [exists []; split; [constructor|destruct h; vm_compute; reflexivity]|]. split; [repeat constructor; lia|vm_compute; discriminate].
    + split.
      * intros a Ha. unfold frame_size. rewrite (Ha "data") by (intros (f & [<- | [<- | [<- | []]]] & H1 & H2); discriminate H2). destruct Ho as [-> | ->]; reflexivity.
      * exists (BArr [0; 3]). split; [exists []; split; [constructor|destruct h; vm_compute; reflexivity]|]. split; [repeat constructor; lia|vm_compute; discriminate].
  - eexists. destruct Ho as [-> | ->].
    + exists StructError. split; [reflexivity|]. split; [|intros [X|X]; discriminate X]. exists (byte_place 4 8). split; [apply (A _ 3%nat); first [reflexivity|assumption|cbn; lia]|].
      right. exists (VStr [65]). split; [reflexivity|]. exists []. split; [apply Forall2_nil|destruct h; vm_compute; reflexivity].
    + exists AttributeError. split; [reflexivity|]. split; [|intros [X|X]; discriminate X]. exists (byte_place 4 8). split; [apply (A _ 3%nat); first [reflexivity|assumption|cbn; lia]|].
      left. auto.
Qed.

(** Property C81: Buffer classes used through StructTypeAdapter. *)
From Verif Require Import Base BaseProofs IntCodec CodecSpec Stream StreamSpec StreamProofs Marshal FieldSpec Range RangeSpec IoBuffer IoSpec Serialize SerializeSpec
  RefEngine RefSpec BufferModel BufferSpec BufferMacros BufferReadSpec BufferCodecSpec BufferPack BufferReads BufferNested BufferBuilders BufferExamples
  PropertiesHooks PropertiesBuffer PropertiesReads Compat CompatProofs.
From Coq Require Import ZArith List Bool String Lia.
Import ListNotations.
Open Scope string_scope.
Open Scope list_scope.
Open Scope Z_scope.

(** ** C81.  An object with a fixed layout written to a stream can be read back: from the bytes, and
    from any stream in which they come next, if byte_size is an int.  The stream is left right
    after them. *)
Theorem C81_roundtrip : forall fl ul C lay o out,
  cls_ok (mkCls fl ul None) -> make_class fl ul = Ok C ->
  Forall2 (fun f x => slot C f (fst x) (snd x)) fl lay -> apart (map fst lay) ->
  NoDup (map f_name fl) -> has_values o fl lay ->
  exists bytes o', ad_write_to_stream (mkAdapter C false) (o, out) = (Ok tt, (o', out ++ bytes))
    /\ (exists o1, ad_create_from_string (mkAdapter C false) (PyBytes bytes) = Ok o1 /\ has_values o1 fl lay)
    /\ forall s t, stream_ok s -> rest s = bytes ++ t -> zlen bytes <= maxsize -> (forall n, k_size C = Some n -> n mod 8 = 0) ->
       exists o2, ad_create_from_stream (mkAdapter C false) s = (Ok o2, consume (List.length bytes) s) /\ has_values o2 fl lay.
Proof. exact adapter_roundtrip. Qed.
Print Assumptions C81_roundtrip.
Example C81_nonvacuous : forall h x y data pos tail, 0 <= x < 65536 -> - 32768 <= y < 32768 -> 0 <= pos <= zlen data ->
  exists bytes o', ad_write_to_stream (mkAdapter (point h) false) (point_at x y, []) = (Ok tt, (o', bytes))
    /\ (skipn (Z.to_nat pos) data = bytes ++ tail -> zlen bytes <= maxsize ->
        exists o2, ad_create_from_stream (mkAdapter (point h) false) (SBytesIO data pos) = (Ok o2, SBytesIO data (pos + zlen bytes))
          /\ Marshal.lookup o2 "x" = Some (VInt x) /\ Marshal.lookup o2 "y" = Some (VInt y)).
Proof.
  intros h x y data pos tail Hx Hy Hp.
  destruct (C81_roundtrip (point_fields h) point_users (point h) [(at_bytes 0 2, VInt x); (at_bytes 2 4, VInt y)] (point_at x y) []) as (bytes & o' & W & _ & R).
  - class_ok.
  - apply point_made.
  - now apply point_slots.
  - apply (byte_places_apart [(0, 2); (2, 4)]); repeat constructor; cbn [fst snd]; lia.
  - repeat constructor; cbn; intuition discriminate.
  - repeat constructor.
  - exists bytes, o'. split; [exact W|]. intros E L.
    destruct (R (SBytesIO data pos) tail) as (o2 & R1 & R2).
    + exact Hp.
    + exact E.
    + exact L.
    + intros n N. cbn in N. assert (n = 32) by congruence. subst. reflexivity.
    + exists o2. split; [exact R1|]. inversion R2 as [|? ? ? ? V1 R3]; subst. inversion R3 as [|? ? ? ? V2 _]; subst. auto.
Qed.
Example C81_nonvacuous_bytes : forall h, ad_write_to_stream (mkAdapter (point h) false) (point_at 258 (-2), [9]) = (Ok tt, (point_at 258 (-2), [9; 1; 2; 255; 254]))
  /\ ad_create_from_stream (mkAdapter (point h) false) (SBytesIO [9; 1; 2; 255; 254; 7] 1) = (Ok [("x", VInt 258); ("y", VInt (-2))], SBytesIO [9; 1; 2; 255; 254; 7] 5).
Proof. intros h. destruct h; vm_compute; auto. Qed.

(** But write_to_string() returns a bytearray, which create_from_string() of the same adapter never
    accepts. *)
Theorem C81_own_string_refuted : forall a o s o', ad_write_to_string a o = (Ok s, o') -> ad_create_from_string a s = Err TypeError.
Proof.
  intros a o s o'. unfold ad_write_to_string. destruct (buffer_pack (ad_cls a) o) as [[l|e] o1]; [|discriminate].
  intros E. assert (s = PyByteArray l) by congruence. subst. reflexivity.
Qed.
Print Assumptions C81_own_string_refuted.
Example C81_own_string_nonvacuous : forall h, ad_write_to_string (mkAdapter (point h) false) (point_at 258 (-2)) = (Ok (PyByteArray [1; 2; 255; 254]), point_at 258 (-2)).
Proof. intros h. destruct h; vm_compute; auto. Qed.

(** write_to_stream(): what is written is what pack() returned, as many bytes as sizeof() says; if
    pack() fails nothing is written.  The three methods leave the object in the same state. *)
Theorem C81_sizes_agree : forall a o out,
  (exists bytes o', ad_write_to_stream a (o, out) = (Ok tt, (o', out ++ bytes)) /\ ad_sizeof a o = (Ok (zlen bytes), o')
     /\ ad_write_to_string a o = (Ok (PyByteArray bytes), o')
     /\ (Forall predefined (k_fields (ad_cls a)) -> forall n, k_size (ad_cls a) = Some n -> n <> 0 -> zlen bytes = (n + 7) / 8))
  \/ (exists e o', ad_write_to_stream a (o, out) = (Err e, (o', out)) /\ ad_sizeof a o = (Err e, o') /\ ad_write_to_string a o = (Err e, o')).
Proof.
  intros a o out. unfold ad_write_to_stream, ad_sizeof, ad_write_to_string. cbn [fst snd]. destruct (buffer_pack (ad_cls a) o) as [[l|e] o'] eqn:E.
  - left. exists l, o'. repeat split. intros Hp n Hn N. exact (proj1 (C47_packed_size _ n Hp Hn N) o l o' E).
  - right. eauto.
Qed.
Print Assumptions C81_sizes_agree.
Example C81_sizes_nonvacuous : forall h,
  Forall predefined (k_fields (record_class h)) /\ k_size (record_class h) = Some 80
  /\ ad_sizeof (mkAdapter (record_class h) false) [("number", VInt 7); ("flags", VInt 5); ("data", VBytes [1; 2])] = (Err InstructBufferError, [("number", VInt 7); ("flags", VInt 5); ("data", VBytes [1; 2])])
  /\ fst (ad_sizeof (mkAdapter (record_class h) false) [("number", VInt 7); ("flags", VInt 5); ("data", VBytes [1; 2; 3; 4; 5; 6])]) = Ok 10.
Proof. intros h. split; [|split; [reflexivity|]]. - repeat constructor. - destruct h; vm_compute; auto. Qed.

(** create_from_stream() needs a fixed size: without one it is a ValueError, and with one that is a
    float object a plain stream refuses it.  Nothing is read in either case. *)
Theorem C81_size_needed : forall a, (forall s, k_size (ad_cls a) = None -> ad_create_from_stream a s = (Err ValueError, s))
  /\ (forall n data pos, k_size (ad_cls a) = Some n -> ad_float a = true -> ad_create_from_stream a (SBytesIO data pos) = (Err TypeError, SBytesIO data pos)).
Proof.
  intros a. split.
  - intros s E. unfold ad_create_from_stream. now rewrite E.
  - intros n data pos E F. unfold ad_create_from_stream. rewrite E. unfold sbind, ad_read. now rewrite F.
Qed.
Print Assumptions C81_size_needed.
(** In particular a class with a field whose position depends on the object. *)
Theorem C81_no_size : forall fl ul C i f, cls_ok (mkCls fl ul None) -> Forall predefined fl -> make_class fl ul = Ok C ->
  nth_error fl i = Some f -> (forall v, ~ static (nodes C) (mkRid KPackPos i) v) ->
  forall fd s, ad_create_from_stream (mkAdapter C fd) s = (Err ValueError, s).
Proof.
  intros fl ul C i f Hok Hp Hm Hf Hs fd s. apply (proj1 (C81_size_needed (mkAdapter C fd))). cbn [ad_cls].
  destruct (C47_class_size fl ul C Hok Hp Hm) as (E1 & E2 & K). destruct (k_size C) as [n|]; [exfalso|reflexivity].
  destruct K as ((pos & P & _) & _). exact (static_places_all C i f pos P (eq_trans (f_equal (fun l => nth_error l i) E1) Hf) Hs).
Qed.
Print Assumptions C81_no_size.
Example C81_no_size_nonvacuous : forall h s, ad_create_from_stream (mkAdapter (path h) false) s = (Err ValueError, s)
  /\ ad_create_from_stream (mkAdapter (bits_class h) true) (SBytesIO [1; 2; 3] 0) = (Err TypeError, SBytesIO [1; 2; 3] 0).
Proof. intros h s. auto. Qed.

(** A stream that ends early: what is left is unpacked, all of it is consumed, and whether this is an
    error depends on the fields alone; a class whose fields take what is there (C80) is read from
    any stream, even from an empty one. *)
Theorem C81_short_stream : forall C n s, k_size C = Some n -> stream_ok s -> 0 <= n / 8 <= maxsize -> zlen (rest s) <= n / 8 ->
  ad_create_from_stream (mkAdapter C false) s
  = (ad_create_from_string (mkAdapter C false) (PyBytes (rest s)), consume (List.length (rest s)) s).
Proof. exact read_short. Qed.
Print Assumptions C81_short_stream.
Theorem C81_short_stream_refuted : forall C n s lay, cls_ok C -> NoDup (map f_name (k_fields C)) -> k_size C = Some n -> stream_ok s -> bytes_ok (rest s) ->
  0 <= n / 8 <= maxsize -> zlen (rest s) <= n / 8 ->
  Forall2 (fun f x => always_at C f (fst x) /\ tolerant (BArr (rest s)) f (fst x) (snd x)) (k_fields C) lay ->
  exists o, ad_create_from_stream (mkAdapter C false) s = (Ok o, consume (List.length (rest s)) s) /\ has_values o (k_fields C) lay.
Proof.
  intros C n s lay Hok Hn E Hs B Hr L H. rewrite (C81_short_stream C n s E Hs Hr L). cbn [ad_create_from_string]. unfold new_unpacked. cbn [ad_cls].
  destruct (init_empty C) as (o0 & I). rewrite I. cbn [rbind].
  destruct (C80_others_do_not C (BArr (rest s)) o0 n lay Hok Hn B E H) as (o' & U & V & _). rewrite U. eauto.
Qed.
Print Assumptions C81_short_stream_refuted.
Example C81_short_stream_nonvacuous : forall h,
  ad_create_from_stream (mkAdapter (rest_class h) false) (SBytesIO [] 0) = (Ok [("flags", VInt 0); ("data", VBytes [])], SBytesIO [] 0)
  /\ ad_create_from_stream (mkAdapter (record_class h) false) (SBytesIO [1; 2; 3] 0) = (Err InstructBufferError, SBytesIO [1; 2; 3] 3)
  /\ ad_create_from_stream (mkAdapter (record_class h) false) (SBytesIO [1; 2; 3; 4; 10; 6] 0)
     = (Ok [("number", VInt 16909060); ("flags", VInt 5); ("data", VBytes [10; 6])], SBytesIO [1; 2; 3; 4; 10; 6] 6).
Proof. intros h. destruct h; vm_compute; auto. Qed.

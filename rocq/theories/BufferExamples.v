(** Classes of the documentation and tests, for all their objects: length prefixes, sizes, fields
    after other fields, conditional fields, objects and lists of objects inside objects. *)
From Verif Require Import Base BaseProofs IntCodec CodecSpec Stream Marshal FieldSpec FieldFacts Range RangeRef RangeSpec RangeFacts RangeArith
  IoBuffer IoSpec IoProofs IoFacts IoOutput Serialize SerializeSpec SerializeFacts SerializeLists
  RefEngine RefSpec RefProofs RefStatic RefSteady BufferModel BufferSpec BufferPlace BufferFacts BufferPack BufferLayout BufferTrip BufferDep
  BufferMacros BufferCodecSpec BufferCodecs BufferErrors BufferClass BufferNested.
From Coq Require Import ZArith List Bool String Lia ZifyBool ZifyNat.
Import ListNotations.
Open Scope string_scope.
Open Scope list_scope.
Open Scope Z_scope.
Ltac Zify.zify_post_hook ::= Z.div_mod_to_equations.

Lemma make_class_by fl ul n : static_size (mkCls fl ul None) (numbered (mkCls fl ul None)) new_ctx [] = Ok n -> make_class fl ul = Ok (mkCls fl ul n).
Proof. intros H. unfold make_class. rewrite H. reflexivity. Qed.
(** All references of a class belong to it: a test. *)
Section Check.
Variable C : cls.
Definition rid_inb (r : rid) : bool := existsb (rid_eqb r) (all_rids C).
Definition arg_inb (a : arg) : bool := match a with AConst _ => true | ARef r => rid_inb r end.
Definition field_nob (i : nat) : bool := Nat.ltb i (List.length (k_fields C)).
Definition uref_inb (u : uref) : bool :=
  match u with
  | UConst _ | UTotal | UInputLen | UAttr _ => true
  | UNum _ a b | UByteSlice a b => arg_inb a && arg_inb b
  | UNeg a | UCast a | UByteNum a | ULen a => arg_inb a
  | UList l | UMin l | UMax l | UFunc _ l | UMember _ l => forallb arg_inb l
  | UBitNum p a => rid_inb p && arg_inb a
  | UBitSlice p a b => rid_inb p && (arg_inb a && arg_inb b)
  | UAfter i | UFieldRef i => field_nob i
  end.
Definition field_inb (f : field) : bool :=
  rid_inb (f_where_pack f) && (rid_inb (f_where_unpack f) && (rid_inb (f_pack_if f) && (rid_inb (f_unpack_if f)
  && (match f_before f with Some (BRef r) => rid_inb r | _ => true end
  && (forallb field_nob (f_unpack_after f) && (forallb arg_inb (f_pack_args f) && forallb arg_inb (f_unpack_args f))))))).
Lemma rid_inb_spec r : rid_inb r = true -> rid_in C r.
Proof. intros H. apply existsb_exists in H. destruct H as (x & H1 & H2). apply rid_eqb_spec in H2. now subst. Qed.
Lemma arg_inb_spec a : arg_inb a = true -> arg_in C a.
Proof. destruct a; [intros; exact Logic.I|apply rid_inb_spec]. Qed.
Lemma field_nob_spec i : field_nob i = true -> field_no C i.
Proof. apply Nat.ltb_lt. Qed.
Lemma forallb_Forall {A} (f : A -> bool) (P : A -> Prop) l : (forall x, f x = true -> P x) -> forallb f l = true -> Forall P l.
Proof. intros H Hl. apply Forall_forall. intros x Hx. apply H. now apply (proj1 (forallb_forall f l)). Qed.
Lemma class_ok_test : forallb uref_inb (k_users C) && forallb field_inb (k_fields C) = true -> cls_ok C.
Proof.
  intros H. apply andb_prop in H. destruct H as (H1 & H2). split; eapply forallb_Forall; try eassumption.
  - intros u. destruct u; cbn [uref_inb uref_in]; intros Hu; try exact Logic.I; repeat (apply andb_prop in Hu; destruct Hu as (? & Hu));
      repeat split; auto using rid_inb_spec, arg_inb_spec, field_nob_spec; eapply forallb_Forall; try eassumption; apply arg_inb_spec.
  - intros f Hf. unfold field_inb in Hf. repeat (apply andb_prop in Hf; destruct Hf as (? & Hf)). unfold field_in. repeat split; auto using rid_inb_spec.
    + destruct (f_before f) as [[]|]; auto using rid_inb_spec.
    + eapply forallb_Forall; try eassumption. apply field_nob_spec.
    + eapply forallb_Forall; try eassumption. apply arg_inb_spec.
    + eapply forallb_Forall; try eassumption. apply arg_inb_spec.
Qed.
End Check.
Ltac class_ok := apply class_ok_test; vm_compute; reflexivity.

(** ** What references evaluate to *)
Section Given.
Variables (C : cls) (know : lfact -> Prop).
Lemma given_ev a (k : rv -> bprog) v w : given_arg C know a v -> given_prog C know (k v) w -> given_prog C know (ev a k) w.
Proof. destruct a; cbn [given_arg ev]; [now intros ->|]. intros H1 H2. econstructor; eauto. Qed.
Lemma given_user k u v : nth_error (k_users C) k = Some u -> given_prog C know (user_prog C u) v -> given C know (mkRid KUser k) v.
Proof. intros H1 H2. constructor. unfold nodes. cbn [r_kind r_no]. now rewrite H1. Qed.
Lemma given_retr m v : m = Ok v -> given_prog C know (ret m) v.
Proof. intros ->. constructor. Qed.
Lemma given_const k v : nth_error (k_users C) k = Some (UConst v) -> given C know (mkRid KUser k) v.
Proof. intros H. eapply given_user; [exact H|]. constructor. Qed.
Lemma given_slice k a b x y v : nth_error (k_users C) k = Some (UByteSlice a b) -> given_arg C know a x -> given_arg C know b y ->
  slice_ranges x y = Ok v -> given C know (mkRid KUser k) v.
Proof. intros H Ha Hb E. eapply given_user; [exact H|]. cbn [user_prog]. eapply given_ev; [exact Ha|]. eapply given_ev; [exact Hb|]. now apply given_retr. Qed.
Lemma given_num k op a b x y v : nth_error (k_users C) k = Some (UNum op a b) -> given_arg C know a x -> given_arg C know b y ->
  num_op op x y = Ok v -> given C know (mkRid KUser k) v.
Proof. intros H Ha Hb E. eapply given_user; [exact H|]. cbn [user_prog]. eapply given_ev; [exact Ha|]. eapply given_ev; [exact Hb|]. now apply given_retr. Qed.
Lemma given_len k a x v : nth_error (k_users C) k = Some (ULen a) -> given_arg C know a x -> py_len x = Ok v -> given C know (mkRid KUser k) v.
Proof. intros H Ha E. eapply given_user; [exact H|]. cbn [user_prog]. eapply given_ev; [exact Ha|]. now apply given_retr. Qed.
End Given.

Definition num (n : Z) : arg := AConst (RVal (VInt n)).
Definition user (k : nat) : rid := mkRid KUser k.
Lemma rnum_bytes n : rnum (8 * n) = RVal (VInt n).
Proof. unfold rnum. replace ((8 * n) mod 8 =? 0) with true by lia. do 2 f_equal. lia. Qed.
Lemma slice_bytes a b : 0 <= a -> a <= b -> slice_ranges (RVal (VInt a)) (RVal (VInt b)) = Ok (RRanges [mkR (8 * a) (Some (8 * b))]).
Proof.
  intros H1 H2. unfold slice_ranges. cbn [opt_num_bits num_bits rbind]. unfold mk_srange.
  replace (0 <=? 8 * a) with true by lia. replace (0 <=? 8 * b) with true by lia. replace (8 * a <=? 8 * b) with true by lia. reflexivity.
Qed.
Lemma slice_open a : 0 <= a -> slice_ranges (RVal (VInt a)) (RVal VNone) = Ok (RRanges [mkR (8 * a) None]).
Proof. intros H. unfold slice_ranges. cbn [opt_num_bits num_bits rbind]. unfold mk_srange. replace (0 <=? 8 * a) with true by lia. reflexivity. Qed.
Lemma num_op_add a b : num_op OpAdd (RVal (VInt a)) (RVal (VInt b)) = Ok (RVal (VInt (a + b))).
Proof. unfold num_op. cbn [num_bits rbind]. rewrite <- rnum_bytes. do 2 f_equal. lia. Qed.
Lemma num_op_sub a b : num_op OpSub (RVal (VInt a)) (RVal (VInt b)) = Ok (RVal (VInt (a - b))).
Proof. unfold num_op. cbn [num_bits rbind]. rewrite <- rnum_bytes. do 2 f_equal. lia. Qed.
(** One range of bytes. *)
Definition at_bytes (a b : Z) : list srange := [mkR (8 * a) (Some (8 * b))].
Lemma positions_bytes a b : 0 <= a -> a <= b -> zlen (all_positions (at_bytes a b)) = 8 * (b - a).
Proof.
  intros H1 H2. unfold at_bytes. rewrite <- total_len_positions; [unfold bounds; cbn [map total_len fold_right fst snd r_start r_stop]; lia|].
  constructor; [|constructor]. split; [split; cbn [r_start r_stop]; lia|discriminate].
Qed.

Lemma length_bytes a b : 0 <= a -> a <= b -> list_byte_length (at_bytes a b) = Some (8 * (b - a)).
Proof.
  intros H1 H2. rewrite (proj1 (list_byte_length_spec _)), positions_bytes by assumption || (repeat constructor; try discriminate; cbn [r_start r_stop]; lia).
  reflexivity.
Qed.

(** ** A length prefix (tests/test_buffer_buffer.py:64-73) *)
(** class Foo(Buffer):
        f_int = uint_field(byte order, where=bytes_ref[0:w], set_before_pack=len_ref(self_ref.f_str))
        f_str = bytearray_field(where=bytes_ref[w:w + f_int]) *)
Definition prefix_int (h : host) (e : bendian) : field :=
  int_field h e false None (mkKw "f_int" VNone (user 1) (user 1) (user 0) (user 0) (Some (BRef (user 3))) None []).
Definition prefix_str : field :=
  bytearray_field (mkKw "f_str" VNone (user 5) (user 5) (user 0) (user 0) None None []).
Definition prefix_users (s : isize) : list uref :=
  [UConst (rbool true); UByteSlice (num 0) (num (width_in_bytes s)); UAttr "f_str"; ULen (ARef (user 2));
   UNum OpAdd (num (width_in_bytes s)) (ARef (mkRid KField 0)); UByteSlice (num (width_in_bytes s)) (ARef (user 4))].
Definition prefix_class (h : host) (e : bendian) (s : isize) : cls := mkCls [prefix_int h e; prefix_str] (prefix_users s) None.
Lemma prefix_class_made h e s : make_class [prefix_int h e; prefix_str] (prefix_users s) = Ok (prefix_class h e s).
Proof. apply make_class_by. destruct h, e, s; vm_compute; reflexivity. Qed.
Lemma prefix_class_ok h e s : cls_ok (prefix_class h e s).
Proof. class_ok. Qed.

(** The layout for the payload [l]. *)
Definition prefix_layout (s : isize) (b1 b2 : buf) (l : list Z) : layout :=
  let w := width_in_bytes s in
  [Some (mkEntry (at_bytes 0 w) (at_bytes 0 w) (at_bytes 0 w) (VInt (zlen l)) b1 (Some (8 * w)));
   Some (mkEntry (at_bytes w (w + zlen l)) (at_bytes w (w + zlen l)) (at_bytes w (w + zlen l)) (VBytes l) b2 (Some (8 * zlen l)))].
Lemma prefix_laid_out h e s l o : struct_width e s -> zlen l < 2 ^ (8 * width_in_bytes s) -> bytes_ok l -> Marshal.lookup o "f_str" = Some (VBytes l) ->
  exists b1 b2, class_layout (prefix_class h e s) (prefix_layout s b1 b2 l) o.
Proof.
  intros Hs Hl Hb Ho. assert (Hw : 0 < width_in_bytes s) by (destruct s; reflexivity). assert (L : 0 <= zlen l) by (unfold zlen; lia).
  set (w := width_in_bytes s) in *.
  destruct (stores_packed (prefix_int h e) (Some (8 * w)) [] (8 * w) (VInt (zlen l)) (8 * w) []) as (b1 & B1 & _).
  { apply st_int; [exact Hs|]. unfold int_fits. fold w. lia. }
  destruct (stores_packed prefix_str (Some (8 * zlen l)) [] (8 * zlen l) (VBytes l) (8 * zlen l) []) as (b2 & B2 & _).
  { now apply st_bytes. }
  exists b1, b2. split; [reflexivity|].
  exists (fun i => match i with 0%nat => 1%nat | _ => 0%nat end), (fun i => match i with 0%nat => 0%nat | _ => 2%nat end), (fun i => i).
  assert (P1 : forall know, given (prefix_class h e s) know (user 1) (RRanges (at_bytes 0 w))).
  { intros know. eapply given_slice; [reflexivity|reflexivity|reflexivity|]. fold w. apply slice_bytes; lia. }
  assert (P2 : forall know : lfact -> Prop, know (FValue 0 (VInt (zlen l))) -> given (prefix_class h e s) know (user 5) (RRanges (at_bytes w (w + zlen l)))).
  { intros know K. eapply given_slice; [reflexivity|reflexivity| |].
    - eapply given_num; [reflexivity|reflexivity|exact (given_field _ _ _ _ K)|apply num_op_add].
    - fold w. apply slice_bytes; lia. }
  assert (T : forall know, exists c, given (prefix_class h e s) know (user 0) c /\ truthy c = true).
  { intros know. exists (rbool true). split; [now apply given_const|reflexivity]. }
  intros [|[|i]] f Hf; cbn [k_fields prefix_class nth_error] in Hf; [| |destruct i; discriminate]; injection Hf as <-; cbn [prefix_layout nth_error];
    unfold laid_out; fold w; cbn [e_write e_read e_place e_value e_buf e_used].
  - split; [apply P1|]. split; [now left|]. split; [congruence|]. split; [apply P1|]. split; [apply T|]. split; [apply T|]. split.
    + unfold value_to_pack. cbn [f_before prefix_int int_field build kw_before]. eapply (given_len _ _ _ _ (RVal (VBytes l))); [reflexivity| |reflexivity].
      cbn [given_arg]. eapply given_attr; [reflexivity|reflexivity|]. split; [cbn [below]; lia|]. eexists. split; reflexivity.
    + split; [reflexivity|]. split; [constructor|]. exists [], []. split; [constructor|]. split; [constructor|]. rewrite positions_bytes by lia.
      replace (w - 0) with w by lia. unfold given_size. cbn [f_size prefix_int int_field build size_keyword].
      rewrite length_bytes by lia. replace (w - 0) with w by lia. exact B1.
  - assert (K : forall P : lfact -> Prop, P (FValue 0 (VInt (zlen l))) -> known (prefix_layout s b1 b2 l) P (FValue 0 (VInt (zlen l)))).
    { intros P HP. split; [exact HP|]. eexists. split; reflexivity. }
    split; [apply P2, K; cbn [below]; lia|]. split; [now left|]. split; [congruence|]. split; [apply P2, K; cbn [read_before]; lia|].
    split; [apply T|]. split; [apply T|]. split; [exact Ho|].
    split; [reflexivity|]. split; [constructor|]. exists [], []. split; [constructor|]. split; [constructor|]. rewrite positions_bytes by lia.
    unfold given_size. cbn [f_size prefix_str bytearray_field build].
    rewrite length_bytes by lia.
    replace (w + zlen l - w) with (zlen l) by lia. exact B2.
Qed.

Lemma offset_bytes a b n : n <= b - a -> byte_offset (at_bytes a b) (8 * n) = Ok (8 * (a + n)).
Proof.
  intros H. unfold at_bytes. cbn [byte_offset byte_length r_start r_stop]. replace (8 * n <=? 8 * b - 8 * a) with true by lia. f_equal. lia.
Qed.

(** Places that are ranges of bytes. *)
Definition byte_places (ps : list (Z * Z)) : list (list srange) := map (fun p => at_bytes (fst p) (snd p)) ps.
Lemma byte_places_in ps r : In r (List.concat (byte_places ps)) -> exists p, In p ps /\ r = mkR (8 * fst p) (Some (8 * snd p)).
Proof.
  intros H. apply in_concat in H. destruct H as (l & H1 & H2). apply in_map_iff in H1. destruct H1 as (p & <- & H1). destruct H2 as [<-|[]]. eauto.
Qed.
Lemma byte_places_largest ps n : (forall p, In p ps -> snd p <= n) -> (exists a, In (a, n) ps) -> 0 <= n -> largest_stop (List.concat (byte_places ps)) (8 * n).
Proof.
  intros H1 (a & H2) H3. split; [|split; [|lia]].
  - intros r x Hr Hx. apply byte_places_in in Hr. destruct Hr as (p & P1 & ->). specialize (H1 p P1). cbn [r_stop] in Hx.
    assert (8 * snd p = x) by congruence. lia.
  - right. exists (mkR (8 * a) (Some (8 * n))). split; [|reflexivity]. apply in_concat. exists (at_bytes a n). split; [|now left].
    apply in_map_iff. exists (a, n). auto.
Qed.
Lemma byte_places_apart ps : Forall (fun p => 0 <= fst p <= snd p) ps -> ForallOrdPairs (fun p q => snd p <= fst q \/ snd q <= fst p) ps -> apart (byte_places ps).
Proof.
  intros H1 H2. split; [|split].
  - apply Forall_forall. intros r Hr. apply byte_places_in in Hr. destruct Hr as (p & P1 & ->). pose proof (proj1 (Forall_forall _ _) H1 p P1) as H. cbv beta in H.
    split; [split; cbn [r_start r_stop]; lia|discriminate].
  - clear H1. unfold pairwise_disjoint. induction H2 as [|p ps H2 _ IH]; [constructor|]. cbn [byte_places map List.concat at_bytes app]. constructor; [|exact IH].
    apply Forall_forall. intros r Hr. apply byte_places_in in Hr. destruct Hr as (q & Q1 & ->). pose proof (proj1 (Forall_forall _ _) H2 q Q1) as H. cbv beta in H.
    intros (x & X1 & X2). unfold in_range in *. cbn [r_start r_stop] in *. lia.
  - apply Forall_forall. intros l Hl. apply in_map_iff in Hl. destruct Hl as (p & <- & _). left. eexists. reflexivity.
Qed.

(** Whatever the payload, it is restored, and the prefix is its length. *)
Theorem prefix_roundtrip h e s l o : struct_width e s -> zlen l < 2 ^ (8 * width_in_bytes s) -> bytes_ok l ->
  Marshal.lookup o "f_str" = Some (VBytes l) ->
  exists bytes o', buffer_pack (prefix_class h e s) o = (Ok bytes, o') /\ zlen bytes = width_in_bytes s + zlen l
    /\ Marshal.lookup o' "f_int" = Some (VInt (zlen l)) /\ Marshal.lookup o' "f_str" = Some (VBytes l)
    /\ forall rest o2, bytes_ok rest -> exists o'', buffer_unpack (prefix_class h e s) (BArr (bytes ++ rest)) o2 = (Ok (8 * zlen bytes), o'')
       /\ Marshal.lookup o'' "f_int" = Some (VInt (zlen l)) /\ Marshal.lookup o'' "f_str" = Some (VBytes l).
Proof.
  intros Hs Hl Hb Ho. destruct (prefix_laid_out h e s l o Hs Hl Hb Ho) as (b1 & b2 & L).
  assert (Hw : 0 < width_in_bytes s) by (destruct s; reflexivity). assert (Hz : 0 <= zlen l) by (unfold zlen; lia).
  set (n := width_in_bytes s + zlen l).
  destruct (layout_roundtrip (prefix_class h e s) (prefix_layout s b1 b2 l) o (8 * n) (prefix_class_ok h e s) L)
    as (bytes & o' & P1 & P2 & (m & P3 & P4) & _ & P5 & P6).
  - apply (byte_places_apart [(0, width_in_bytes s); (width_in_bytes s, width_in_bytes s + zlen l)]); repeat constructor; cbn [fst snd]; lia.
  - split; [discriminate|]. exists [8 * width_in_bytes s; 8 * n]. split; [|split].
    + repeat constructor; eexists; (split; [reflexivity|]); cbn [e_place]; rewrite offset_bytes by lia; f_equal; unfold n; lia.
    + repeat constructor; unfold n; lia.
    + left. right. now left.
  - repeat constructor; cbn; intuition discriminate.
  - cbn [k_size prefix_class] in P4. assert (m = 8 * n).
    { apply (largest_stop_unique _ _ _ P3). apply (byte_places_largest [(0, width_in_bytes s); (width_in_bytes s, n)]); [|eexists; right; left; reflexivity|unfold n; lia].
      intros p [<-|[<-|[]]]; cbn [snd]; unfold n; lia. }
    subst m. assert (E : zlen bytes = n) by lia. exists bytes, o'. split; [exact P1|]. split; [exact E|].
    split; [apply (P5 0%nat (prefix_int h e) _ eq_refl eq_refl)|]. split; [apply (P5 1%nat prefix_str _ eq_refl eq_refl)|].
    intros rest o2 Hr. destruct (P6 (BArr (bytes ++ rest)) (bits_of_bytes rest) o2) as (o'' & U1 & U2 & _).
    + apply Forall_app. auto.
    + cbn [buf_bits]. apply flat_map_app.
    + intros i x Hx. left. destruct i as [|[|i]]; cbn [prefix_layout nth_error] in Hx; [| |destruct i; discriminate]; injection Hx as <-; reflexivity.
    + exists o''. rewrite E. split; [exact U1|]. inversion U2 as [|? ? ? ? V1 U3]; subst. inversion U3 as [|? ? ? ? V2 _]; subst. split; [exact V1|exact V2].
Qed.

(** ** Sizes, open positions, positions after other fields *)
(** class Packet(Buffer):
        crc = be_uint_field(where=bytes_ref[after_ref(data):after_ref(data) + 2])
        data = bytearray_field(where_when_pack=bytes_ref[6:], where_when_unpack=bytes_ref[6:6 + length])
        length = be_uint_field(where=bytes_ref[4:6], set_before_pack=len_ref(self_ref.data))
        total = be_uint_field(where=bytes_ref[0:4], set_before_pack=total_size) *)
Definition packet_kw (n : name) (wp wu : nat) (b : option before) : keywords := mkKw n VNone (user wp) (user wu) (user 0) (user 0) b None [].
Definition packet_fields (h : host) : list field :=
  [int_field h BBig false None (packet_kw "crc" 3 3 None);
   bytearray_field (packet_kw "data" 4 6 None);
   int_field h BBig false None (packet_kw "length" 7 7 (Some (BRef (user 9))));
   int_field h BBig false None (packet_kw "total" 10 10 (Some (BRef (user 11))))].
Definition packet_users : list uref :=
  [UConst (rbool true);
   UAfter 1; UNum OpAdd (ARef (user 1)) (num 2); UByteSlice (ARef (user 1)) (ARef (user 2));
   UByteSlice (num 6) (AConst (RVal VNone)); UNum OpAdd (num 6) (ARef (mkRid KField 2)); UByteSlice (num 6) (ARef (user 5));
   UByteSlice (num 4) (num 6); UAttr "data"; ULen (ARef (user 8));
   UByteSlice (num 0) (num 4); UTotal].
Definition packet (h : host) : cls := mkCls (packet_fields h) packet_users None.
Lemma packet_made h : make_class (packet_fields h) packet_users = Ok (packet h).
Proof. apply make_class_by. destruct h; vm_compute; reflexivity. Qed.
Lemma packet_ok h : cls_ok (packet h).
Proof. class_ok. Qed.

Definition packet_layout (b1 b2 b3 b4 : buf) (l : list Z) (crc : Z) : layout :=
  let n := zlen l in
  [Some (mkEntry (at_bytes (6 + n) (8 + n)) (at_bytes (6 + n) (8 + n)) (at_bytes (6 + n) (8 + n)) (VInt crc) b1 (Some 16));
   Some (mkEntry [mkR 48 None] (at_bytes 6 (6 + n)) (at_bytes 6 (6 + n)) (VBytes l) b2 (Some (8 * n)));
   Some (mkEntry (at_bytes 4 6) (at_bytes 4 6) (at_bytes 4 6) (VInt n) b3 (Some 16));
   Some (mkEntry (at_bytes 0 4) (at_bytes 0 4) (at_bytes 0 4) (VInt (8 + n)) b4 (Some 32))].

Lemma packet_places b1 b2 b3 b4 l crc : places (packet_layout b1 b2 b3 b4 l crc) = byte_places [(6 + zlen l, 8 + zlen l); (6, 6 + zlen l); (4, 6); (0, 4)].
Proof. reflexivity. Qed.
Lemma packet_largest b1 b2 b3 b4 l crc : largest_stop (List.concat (places (packet_layout b1 b2 b3 b4 l crc))) (8 * (8 + zlen l)).
Proof.
  rewrite packet_places. assert (0 <= zlen l) by (unfold zlen; lia).
  apply byte_places_largest; [|eexists; left; reflexivity|lia]. intros p [<-|[<-|[<-|[<-|[]]]]]; cbn [snd]; lia.
Qed.

Lemma packet_laid_out h l crc o : zlen l < 65536 -> bytes_ok l -> 0 <= crc < 65536 -> Marshal.lookup o "data" = Some (VBytes l) ->
  Marshal.lookup o "crc" = Some (VInt crc) -> exists b1 b2 b3 b4, class_layout (packet h) (packet_layout b1 b2 b3 b4 l crc) o.
Proof.
  intros Hl Hb Hc Ho1 Ho2. assert (L : 0 <= zlen l) by (unfold zlen; lia).
  destruct (stores_packed (int_field h BBig false None (packet_kw "crc" 3 3 None)) (Some 16) [] 16 (VInt crc) 16 []) as (b1 & B1 & _).
  { apply (st_int h BBig false None _ I16); [intros (E & _); discriminate|]. exact Hc. }
  destruct (stores_packed (bytearray_field (packet_kw "data" 4 6 None)) None [] (8 * zlen l) (VBytes l) (8 * zlen l) []) as (b2 & B2 & B2').
  { now apply st_bytes. }
  destruct (stores_packed (int_field h BBig false None (packet_kw "length" 7 7 (Some (BRef (user 9))))) (Some 16) [] 16 (VInt (zlen l)) 16 []) as (b3 & B3 & _).
  { apply (st_int h BBig false None _ I16); [intros (E & _); discriminate|]. cbn. lia. }
  destruct (stores_packed (int_field h BBig false None (packet_kw "total" 10 10 (Some (BRef (user 11))))) (Some 32) [] 32 (VInt (8 + zlen l)) 32 []) as (b4 & B4 & _).
  { apply (st_int h BBig false None _ I32); [intros (E & _); discriminate|]. unfold int_fits. cbn [width_in_bytes]. lia. }
  exists b1, b2, b3, b4. split; [reflexivity|].
  exists (fun i => match i with 2%nat => 1%nat | 3%nat => 3%nat | _ => 0%nat end),
         (fun i => match i with 0%nat => 2%nat | 1%nat => 1%nat | _ => 0%nat end),
         (fun i => match i with 0%nat => 2%nat | 1%nat => 1%nat | _ => 0%nat end).
  set (lay := packet_layout b1 b2 b3 b4 l crc).
  assert (T : forall know, exists c, given (packet h) know (user 0) c /\ truthy c = true).
  { intros know. exists (rbool true). split; [now apply given_const|reflexivity]. }
  assert (A : forall know : lfact -> Prop, know (FEnd 1 (8 * (6 + zlen l))) -> given (packet h) know (user 1) (RVal (VInt (6 + zlen l)))).
  { intros know K. rewrite <- rnum_bytes. apply (given_after _ _ 1%nat 1%nat); [reflexivity|exact K]. }
  assert (W0 : forall know : lfact -> Prop, know (FEnd 1 (8 * (6 + zlen l))) -> given (packet h) know (user 3) (RRanges (at_bytes (6 + zlen l) (8 + zlen l)))).
  { intros know K. eapply given_slice; [reflexivity|exact (A know K)| |].
    - eapply given_num; [reflexivity|exact (A know K)|reflexivity|apply num_op_add].
    - unfold at_bytes. replace (8 + zlen l) with (6 + zlen l + 2) by lia. apply slice_bytes; lia. }
  assert (W1 : forall know, given (packet h) know (user 4) (RRanges [mkR 48 None])).
  { intros know. eapply given_slice; [reflexivity|reflexivity|reflexivity|]. reflexivity. }
  assert (W1' : forall know : lfact -> Prop, know (FValue 2 (VInt (zlen l))) -> given (packet h) know (user 6) (RRanges (at_bytes 6 (6 + zlen l)))).
  { intros know K. eapply given_slice; [reflexivity|reflexivity| |].
    - eapply given_num; [reflexivity|reflexivity|exact (given_field _ _ _ _ K)|apply num_op_add].
    - apply slice_bytes; lia. }
  assert (W2 : forall know, given (packet h) know (user 7) (RRanges (at_bytes 4 6))).
  { intros know. eapply given_slice; [reflexivity|reflexivity|reflexivity|]. reflexivity. }
  assert (W3 : forall know, given (packet h) know (user 10) (RRanges (at_bytes 0 4))).
  { intros know. eapply given_slice; [reflexivity|reflexivity|reflexivity|]. reflexivity. }
  assert (KE : forall P : lfact -> Prop, P (FEnd 1 (8 * (6 + zlen l))) -> known lay P (FEnd 1 (8 * (6 + zlen l)))).
  { intros P HP. split; [exact HP|]. eexists. split; [reflexivity|]. split; [|left; reflexivity]. cbn [e_place].
    apply (byte_places_largest [(6, 6 + zlen l)]); [|eexists; now left|lia]. intros p [<-|[]]. cbn [snd]. lia. }
  intros [|[|[|[|i]]]] f Hf; cbn [k_fields packet packet_fields nth_error] in Hf; [| | | |destruct i; discriminate]; injection Hf as <-;
    unfold lay at 1; cbn [packet_layout nth_error]; unfold laid_out; cbn [e_write e_read e_place e_value e_buf e_used].
  - split; [apply W0, KE; cbn [below]; lia|]. split; [now left|]. split; [congruence|]. split; [apply W0, KE; cbn [read_before]; lia|]. split; [apply T|].
    split; [apply T|]. split; [exact Ho2|]. split; [reflexivity|]. split; [constructor|]. exists [], []. split; [constructor|]. split; [constructor|].
    unfold given_size. cbn [f_size int_field build size_keyword]. rewrite length_bytes, positions_bytes by lia.
    replace (8 * (8 + zlen l - (6 + zlen l))) with 16 by lia. exact B1.
  - split; [apply W1|]. split; [right; exists [], 48; split; [reflexivity|]; split; [|constructor]; rewrite B2'; unfold at_bytes, cdiv8; cbn [app all_positions flat_map]; change (zlen []) with 0; do 3 f_equal; lia|]. split; [intros _; lia|].
    split; [apply W1'; split; [cbn [read_before]; lia|]; eexists; split; reflexivity|]. split; [apply T|].
    split; [apply T|]. split; [exact Ho1|]. split; [reflexivity|]. split; [constructor|]. exists [], []. split; [constructor|]. split; [constructor|].
    unfold given_size. cbn [f_size bytearray_field build]. rewrite length_bytes, positions_bytes by lia.
    replace (8 * (6 + zlen l - 6)) with (8 * zlen l) by lia. exact B2.
  - split; [apply W2|]. split; [now left|]. split; [congruence|]. split; [apply W2|]. split; [apply T|].
    split; [apply T|]. split.
    { unfold value_to_pack. cbn [f_before int_field build kw_before packet_kw]. eapply (given_len _ _ _ _ (RVal (VBytes l))); [reflexivity| |reflexivity].
      cbn [given_arg]. eapply given_attr; [reflexivity|reflexivity|]. split; [cbn [below]; lia|]. eexists. split; reflexivity. }
    split; [reflexivity|]. split; [constructor|]. exists [], []. split; [constructor|]. split; [constructor|]. exact B3.
  - split; [apply W3|]. split; [now left|]. split; [congruence|]. split; [apply W3|]. split; [apply T|].
    split; [apply T|]. split.
    { unfold value_to_pack. cbn [f_before int_field build kw_before packet_kw]. rewrite <- rnum_bytes. apply given_total; [reflexivity|reflexivity|].
      split; [cbn [below]; intros i; destruct i as [|[|[|[|i]]]]; lia|]. split; [|apply packet_largest].
      repeat (apply Forall_cons; [eexists; reflexivity|]). apply Forall_nil. }
    split; [reflexivity|]. split; [constructor|]. exists [], []. split; [constructor|]. split; [constructor|]. exact B4.
Qed.

Theorem packet_roundtrip h l crc o : zlen l < 65536 -> bytes_ok l -> 0 <= crc < 65536 -> Marshal.lookup o "data" = Some (VBytes l) ->
  Marshal.lookup o "crc" = Some (VInt crc) ->
  exists bytes o', buffer_pack (packet h) o = (Ok bytes, o') /\ zlen bytes = 8 + zlen l
    /\ Marshal.lookup o' "length" = Some (VInt (zlen l)) /\ Marshal.lookup o' "total" = Some (VInt (zlen bytes))
    /\ forall rest o2, bytes_ok rest -> exists o'', buffer_unpack (packet h) (BArr (bytes ++ rest)) o2 = (Ok (8 * zlen bytes), o'')
       /\ Marshal.lookup o'' "data" = Some (VBytes l) /\ Marshal.lookup o'' "crc" = Some (VInt crc)
       /\ Marshal.lookup o'' "length" = Some (VInt (zlen l)) /\ Marshal.lookup o'' "total" = Some (VInt (zlen bytes)).
Proof.
  intros Hl Hb Hc Ho1 Ho2. destruct (packet_laid_out h l crc o Hl Hb Hc Ho1 Ho2) as (b1 & b2 & b3 & b4 & K). assert (L : 0 <= zlen l) by (unfold zlen; lia).
  destruct (layout_roundtrip (packet h) (packet_layout b1 b2 b3 b4 l crc) o (8 * (8 + zlen l)) (packet_ok h) K)
    as (bytes & o' & P1 & P2 & (m & P3 & P4) & _ & P5 & P6).
  - rewrite packet_places. apply byte_places_apart; repeat constructor; cbn [fst snd]; lia.
  - split; [discriminate|]. exists [8 * (8 + zlen l); 8 * (6 + zlen l); 48; 32]. split; [|split].
    + repeat constructor; eexists; (split; [reflexivity|]); cbn [e_place]; [|rewrite offset_bytes by lia|reflexivity|reflexivity].
      * change 16 with (8 * 2). rewrite offset_bytes by lia. f_equal. lia.
      * f_equal; lia.
    + repeat constructor; lia.
    + left. now left.
  - repeat constructor; cbn; intuition discriminate.
  - cbn [k_size packet] in P4. pose proof (largest_stop_unique _ _ _ P3 (packet_largest b1 b2 b3 b4 l crc)). subst m.
    assert (E : zlen bytes = 8 + zlen l) by lia. exists bytes, o'. split; [exact P1|]. split; [exact E|]. rewrite E.
    split; [exact (P5 2%nat _ _ eq_refl eq_refl)|]. split; [exact (P5 3%nat _ _ eq_refl eq_refl)|].
    intros rest o2 Hr. destruct (P6 (BArr (bytes ++ rest)) (bits_of_bytes rest) o2) as (o'' & U1 & U2 & _).
    + apply Forall_app. auto.
    + cbn [buf_bits]. apply flat_map_app.
    + intros i x Hx. left. destruct i as [|[|[|[|i]]]]; cbn [packet_layout nth_error] in Hx; [| | | |destruct i; discriminate]; injection Hx as <-; reflexivity.
    + exists o''. split; [exact U1|]. inversion U2 as [|? ? ? ? V1 U3]; subst. inversion U3 as [|? ? ? ? V2 U4]; subst. inversion U4 as [|? ? ? ? V3 U5]; subst.
      inversion U5 as [|? ? ? ? V4 _]; subst. split; [exact V2|]. split; [exact V1|]. split; [exact V3|exact V4].
Qed.

(** ** Conditional fields *)
(** class Opt(Buffer):
        flag = uint_field(where=bytes_ref[0:1])
        opt = be_uint_field(where=bytes_ref[1:3], pack_if=flag, unpack_if=flag) *)
Definition opt_fields (h : host) : list field :=
  [int_field h BNative false None (packet_kw "flag" 1 1 None);
   int_field h BBig false None (mkKw "opt" VNone (user 2) (user 2) (mkRid KField 0) (mkRid KField 0) None None [])].
Definition opt_users : list uref := [UConst (rbool true); UByteSlice (num 0) (num 1); UByteSlice (num 1) (num 3)].
Definition opt_class (h : host) : cls := mkCls (opt_fields h) opt_users (Some 24).
Lemma opt_made h : make_class (opt_fields h) opt_users = Ok (opt_class h).
Proof. apply make_class_by. destruct h; vm_compute; reflexivity. Qed.
Lemma opt_ok h : cls_ok (opt_class h).
Proof. class_ok. Qed.

Definition opt_layout (b1 b2 : buf) (flag x : Z) : layout :=
  [Some (mkEntry (at_bytes 0 1) (at_bytes 0 1) (at_bytes 0 1) (VInt flag) b1 (Some 8));
   if flag =? 0 then None else Some (mkEntry (at_bytes 1 3) (at_bytes 1 3) (at_bytes 1 3) (VInt x) b2 (Some 16))].
Lemma opt_laid_out h flag x o : 0 <= flag < 256 -> 0 <= x < 65536 -> Marshal.lookup o "flag" = Some (VInt flag) ->
  (flag <> 0 -> Marshal.lookup o "opt" = Some (VInt x)) -> exists b1 b2, class_layout (opt_class h) (opt_layout b1 b2 flag x) o.
Proof.
  intros Hf Hx Ho1 Ho2.
  destruct (stores_packed (int_field h BNative false None (packet_kw "flag" 1 1 None)) (Some 8) [] 8 (VInt flag) 8 []) as (b1 & B1 & _).
  { apply (st_int h BNative false None _ I8); [intros (E & _); discriminate|]. unfold int_fits. cbn [width_in_bytes]. lia. }
  destruct (stores_packed (int_field h BBig false None (mkKw "opt" VNone (user 2) (user 2) (mkRid KField 0) (mkRid KField 0) None None []))
              (Some 16) [] 16 (VInt x) 16 []) as (b2 & B2 & _).
  { apply (st_int h BBig false None _ I16); [intros (E & _); discriminate|]. unfold int_fits. cbn [width_in_bytes]. lia. }
  exists b1, b2. split; [reflexivity|]. exists (fun _ => 0%nat), (fun _ => 0%nat), (fun _ => 0%nat).
  assert (W1 : forall know, given (opt_class h) know (user 1) (RRanges (at_bytes 0 1))).
  { intros know. eapply given_slice; [reflexivity|reflexivity|reflexivity|]. reflexivity. }
  assert (W2 : forall know, given (opt_class h) know (user 2) (RRanges (at_bytes 1 3))).
  { intros know. eapply given_slice; [reflexivity|reflexivity|reflexivity|]. reflexivity. }
  assert (T : forall know, exists c, given (opt_class h) know (user 0) c /\ truthy c = true).
  { intros know. exists (rbool true). split; [now apply given_const|reflexivity]. }
  assert (F : forall P : lfact -> Prop, P (FValue 0 (VInt flag)) -> exists c, given (opt_class h) (known (opt_layout b1 b2 flag x) P) (mkRid KField 0) c
                /\ truthy c = negb (flag =? 0)).
  { intros P HP. exists (RVal (VInt flag)). split; [|reflexivity]. apply given_field. split; [exact HP|]. eexists. split; reflexivity. }
  intros [|[|i]] f Hi; cbn [k_fields opt_class opt_fields nth_error] in Hi; [| |destruct i; discriminate]; injection Hi as <-;
    unfold opt_layout at 1; cbn [nth_error].
  - unfold laid_out. cbn [e_write e_read e_place e_value e_buf e_used].
    split; [apply W1|]. split; [now left|]. split; [congruence|]. split; [apply W1|]. split; [apply T|]. split; [apply T|]. split; [exact Ho1|].
    split; [reflexivity|]. split; [constructor|]. exists [], []. split; [constructor|]. split; [constructor|]. exact B1.
  - destruct (flag =? 0) eqn:E.
    + split; [apply (F anything Logic.I)|apply (F not_total Logic.I)].
    + unfold laid_out. cbn [e_write e_read e_place e_value e_buf e_used].
      split; [apply W2|]. split; [now left|]. split; [congruence|]. split; [apply W2|]. split; [apply (F anything Logic.I)|]. split; [apply (F not_total Logic.I)|].
      split; [apply Ho2; lia|]. split; [reflexivity|]. split; [constructor|]. exists [], []. split; [constructor|]. split; [constructor|]. exact B2.
Qed.
(** The optional field is restored if the flag says so, otherwise it is None; the space for it is there anyway. *)
Theorem opt_roundtrip h flag x o : 0 <= flag < 256 -> 0 <= x < 65536 -> Marshal.lookup o "flag" = Some (VInt flag) ->
  (flag <> 0 -> Marshal.lookup o "opt" = Some (VInt x)) ->
  exists bytes o', buffer_pack (opt_class h) o = (Ok bytes, o') /\ zlen bytes = 3
    /\ forall rest o2, bytes_ok rest -> exists o'', buffer_unpack (opt_class h) (BArr (bytes ++ rest)) o2 = (Ok 24, o'')
       /\ Marshal.lookup o'' "flag" = Some (VInt flag) /\ Marshal.lookup o'' "opt" = Some (if flag =? 0 then VNone else VInt x).
Proof.
  intros Hf Hx Ho1 Ho2. destruct (opt_laid_out h flag x o Hf Hx Ho1 Ho2) as (b1 & b2 & K).
  assert (Pl : places (opt_layout b1 b2 flag x) = byte_places (if flag =? 0 then [(0, 1)] else [(0, 1); (1, 3)])).
  { unfold opt_layout. destruct (flag =? 0); reflexivity. }
  destruct (layout_roundtrip (opt_class h) (opt_layout b1 b2 flag x) o 24 (opt_ok h) K) as (bytes & o' & P1 & P2 & (m & P3 & P4) & _ & P5 & P6).
  - rewrite Pl. apply byte_places_apart; destruct (flag =? 0); repeat constructor; cbn [fst snd]; lia.
  - unfold layout_size. cbn [k_size opt_class]. split; [reflexivity|]. split; [lia|]. rewrite Pl. intros r y Hr Hy. apply byte_places_in in Hr.
    destruct Hr as (p & R1 & ->). unfold r_stop in Hy. assert (snd p <= 3) by (destruct (flag =? 0); cbn [In] in R1; intuition (subst; cbn [snd]; lia)).
    assert (8 * snd p = y) by congruence. lia.
  - repeat constructor; cbn; intuition discriminate.
  - assert (E : m <= 24).
    { destruct P3 as (_ & [->|(r & R1 & R2)] & _); [lia|]. rewrite Pl in R1. apply byte_places_in in R1. destruct R1 as (p & R1 & ->). unfold r_stop in R2.
      assert (snd p <= 3) by (destruct (flag =? 0); cbn [In] in R1; intuition (subst; cbn [snd]; lia)). assert (8 * snd p = m) by congruence. lia. }
    cbn [k_size opt_class] in P4. exists bytes, o'. split; [exact P1|]. split; [lia|].
    intros rest o2 Hr. destruct (P6 (BArr (bytes ++ rest)) (bits_of_bytes rest) o2) as (o'' & U1 & U2 & _).
    + apply Forall_app. auto.
    + cbn [buf_bits]. apply flat_map_app.
    + intros i y Hy. left. unfold opt_layout in Hy. destruct i as [|[|i]]; cbn [nth_error] in Hy; [injection Hy as <-; reflexivity| |destruct i; discriminate].
      destruct (flag =? 0); [discriminate|]. injection Hy as <-. reflexivity.
    + exists o''. split; [exact U1|]. inversion U2 as [|? ? ? ? V1 U3]; subst. inversion U3 as [|? ? ? ? V2 _]; subst. split; [exact V1|].
      cbn [f_name int_field build kw_name] in V2. rewrite V2. destruct (flag =? 0); reflexivity.
Qed.

(** ** Objects and lists of objects inside objects *)
(** class Point(Buffer):
        x = be_uint_field(where=bytes_ref[0:2])
        y = be_int_field(where=bytes_ref[2:4]) *)
Definition point_fields (h : host) : list field :=
  [int_field h BBig false None (packet_kw "x" 1 1 None); int_field h BBig true None (packet_kw "y" 2 2 None)].
Definition point_users : list uref := [UConst (rbool true); UByteSlice (num 0) (num 2); UByteSlice (num 2) (num 4)].
Definition point (h : host) : cls := mkCls (point_fields h) point_users (Some 32).
Lemma point_made h : make_class (point_fields h) point_users = Ok (point h).
Proof. apply make_class_by. destruct h; vm_compute; reflexivity. Qed.
Definition point_at (x y : Z) : attrs := [("x", VInt x); ("y", VInt y)].
Lemma point_slots h x y : 0 <= x < 65536 -> - 32768 <= y < 32768 ->
  Forall2 (fun f p => slot (point h) f (fst p) (snd p)) (point_fields h) [(at_bytes 0 2, VInt x); (at_bytes 2 4, VInt y)].
Proof.
  intros Hx Hy. assert (St : forall k v, nth_error point_users k = Some (UConst v) -> static (nodes (point h)) (user k) v).
  { intros k v H. eexists. constructor. unfold nodes. cbn [r_kind r_no user k_users point]. rewrite H. constructor. }
  assert (Sl : forall k a b, nth_error point_users k = Some (UByteSlice (num a) (num b)) -> 0 <= a -> a <= b ->
                static (nodes (point h)) (user k) (RRanges (at_bytes a b))).
  { intros k a b H H1 H2. eexists. constructor. unfold nodes. cbn [r_kind r_no user k_users point]. rewrite H. cbn [user_prog ev num].
    rewrite slice_bytes by assumption. constructor. }
  assert (T : exists c, static (nodes (point h)) (user 0) c /\ truthy c = true) by (exists (rbool true); split; [now apply St|reflexivity]).
  constructor; [|constructor; [|constructor]]; unfold slot; cbn [fst snd].
  - split; [apply Sl; [reflexivity|lia|lia]|]. split; [apply Sl; [reflexivity|lia|lia]|]. split; [exact T|]. split; [exact T|]. split; [reflexivity|]. split; [reflexivity|].
    split; [now left|]. exists [], 16. split; [constructor|]. apply (st_int h BBig false None _ I16); [intros (E & _); discriminate|]. unfold int_fits. cbn [width_in_bytes]. lia.
  - split; [apply Sl; [reflexivity|lia|lia]|]. split; [apply Sl; [reflexivity|lia|lia]|]. split; [exact T|]. split; [exact T|]. split; [reflexivity|]. split; [reflexivity|].
    split; [now left|]. exists [], 16. split; [constructor|]. apply (st_int h BBig true None _ I16); [intros (E & _); discriminate|]. unfold int_fits. cbn [width_in_bytes]. lia.
Qed.
Theorem point_restores h x y : 0 <= x < 65536 -> - 32768 <= y < 32768 ->
  exists bytes, zlen bytes = 4 /\ restores_prefix "Point" (point h) (point_at x y) bytes 32.
Proof.
  intros Hx Hy.
  destruct (fixed_restores (point_fields h) point_users (point h) [(at_bytes 0 2, VInt x); (at_bytes 2 4, VInt y)] (point_at x y)) with (nm := "Point")
    as (n & bytes & N & L & R).
  - class_ok.
  - apply point_made.
  - now apply point_slots.
  - apply (byte_places_apart [(0, 2); (2, 4)]); repeat constructor; cbn [fst snd]; lia.
  - repeat constructor; cbn; intuition discriminate.
  - repeat constructor.
  - reflexivity.
  - injection N as <-. exists bytes. split; [exact L|exact R].
Qed.

(** class Path(Buffer):
        count = le_uint_field(where=bytes_ref[0:4], set_before_pack=len_ref(self_ref.points))
        points = list_field(Point, n=count, where=bytes_ref[4:]) *)
Definition path_fields (h : host) : list field :=
  [int_field h BLittle false None (packet_kw "count" 1 1 (Some (BRef (user 4))));
   list_field (EBuffer "Point" (point h)) (ARef (mkRid KField 0)) None (packet_kw "points" 2 2 None)].
Definition path_users : list uref :=
  [UConst (rbool true); UByteSlice (num 0) (num 4); UByteSlice (num 4) (AConst (RVal VNone)); UAttr "points"; ULen (ARef (user 3))].
Definition path (h : host) : cls := mkCls (path_fields h) path_users None.
Lemma path_made h : make_class (path_fields h) path_users = Ok (path h).
Proof. apply make_class_by. destruct h; vm_compute; reflexivity. Qed.
Lemma path_ok h : cls_ok (path h).
Proof. class_ok. Qed.
Definition points_of (l : list (Z * Z)) : value := VList (map (fun p => VObj "Point" (point_at (fst p) (snd p))) l).
Definition path_layout (b1 b2 : buf) (l : list (Z * Z)) : layout :=
  let n := zlen l in
  [Some (mkEntry (at_bytes 0 4) (at_bytes 0 4) (at_bytes 0 4) (VInt n) b1 (Some 32));
   Some (mkEntry [mkR 32 None] [mkR 32 None] (at_bytes 4 (4 + 4 * n)) (points_of l) b2 (Some (8 * (4 * n))))].
Lemma path_laid_out h l o : zlen l < 2 ^ 32 -> Forall (fun p => 0 <= fst p < 65536 /\ - 32768 <= snd p < 32768) l ->
  Marshal.lookup o "points" = Some (points_of l) -> exists b1 b2, class_layout (path h) (path_layout b1 b2 l) o.
Proof.
  intros Hl Hp Ho. assert (L : 0 <= zlen l) by (unfold zlen; lia).
  destruct (stores_packed (int_field h BLittle false None (packet_kw "count" 1 1 (Some (BRef (user 4))))) (Some 32) [] 32 (VInt (zlen l)) 32 []) as (b1 & B1 & _).
  { apply (st_int h BLittle false None _ I32); [intros (E & _); discriminate|]. unfold int_fits. cbn [width_in_bytes]. lia. }
  assert (Sum : exists ws, Forall2 (stores_elem (EBuffer "Point" (point h))) ws (map (fun p => VObj "Point" (point_at (fst p) (snd p))) l)
                  /\ fold_right Z.add 0 ws = 8 * (4 * zlen l)).
  { clear - Hp. induction Hp as [|p l (H1 & H2) _ (ws & IH1 & IH2)]; [exists []; split; [constructor|reflexivity]|].
    destruct (point_restores h (fst p) (snd p) H1 H2) as (bytes & E & R). exists (8 * zlen bytes :: ws). split.
    - cbn [map]. constructor; [|exact IH1]. apply se_buffer; [rewrite E; exact R|]. intros ->. discriminate.
    - cbn [fold_right]. rewrite IH2, E. unfold zlen. cbn [List.length]. lia. }
  destruct Sum as (ws & S1 & S2). assert (LM : zlen (map (fun p : Z * Z => VObj "Point" (point_at (fst p) (snd p))) l) = zlen l) by (unfold zlen; rewrite map_length; lia).
  destruct (stores_packed (list_field (EBuffer "Point" (point h)) (ARef (mkRid KField 0)) None (packet_kw "points" 2 2 None)) None [RVal (VInt (zlen l))]
              (8 * (4 * zlen l)) (points_of l) (8 * (4 * zlen l)) []) as (b2 & B2 & B2').
  { rewrite <- S2. apply st_list; [exact S1|]. right. rewrite LM. reflexivity. }
  exists b1, b2. split; [reflexivity|]. exists (fun i => match i with 0%nat => 1%nat | _ => 0%nat end), (fun i => match i with 0%nat => 0%nat | _ => 2%nat end), (fun i => i).
  assert (W1 : forall know, given (path h) know (user 1) (RRanges (at_bytes 0 4))).
  { intros know. eapply given_slice; [reflexivity|reflexivity|reflexivity|]. reflexivity. }
  assert (W2 : forall know, given (path h) know (user 2) (RRanges [mkR 32 None])).
  { intros know. eapply given_slice; [reflexivity|reflexivity|reflexivity|]. reflexivity. }
  assert (T : forall know, exists c, given (path h) know (user 0) c /\ truthy c = true).
  { intros know. exists (rbool true). split; [now apply given_const|reflexivity]. }
  intros [|[|i]] f Hi; cbn [k_fields path path_fields nth_error] in Hi; [| |destruct i; discriminate]; injection Hi as <-;
    unfold path_layout at 1; cbn [nth_error]; unfold laid_out; cbn [e_write e_read e_place e_value e_buf e_used].
  - split; [apply W1|]. split; [now left|]. split; [congruence|]. split; [apply W1|]. split; [apply T|]. split; [apply T|]. split.
    { unfold value_to_pack. cbn [f_before int_field build kw_before packet_kw]. eapply (given_len _ _ _ _ (RVal (points_of l))); [reflexivity| |].
      - cbn [given_arg]. eapply given_attr; [reflexivity|reflexivity|]. split; [cbn [below]; lia|]. eexists. split; reflexivity.
      - unfold points_of. cbn [py_len]. rewrite LM. reflexivity. }
    split; [reflexivity|]. split; [constructor|]. exists [], []. split; [constructor|]. split; [constructor|]. exact B1.
  - split; [apply W2|]. split; [right; exists [], 32; split; [reflexivity|]; split; [|constructor]; rewrite B2'; unfold at_bytes, cdiv8; cbn [app all_positions flat_map]; change (zlen []) with 0; do 3 f_equal; lia|]. split; [intros _; lia|].
    split; [apply W2|]. split; [apply T|]. split; [apply T|]. split; [exact Ho|].
    split; [reflexivity|]. split; [constructor|]. exists [], [RVal (VInt (zlen l))]. split; [constructor|]. split.
    { constructor; [|constructor]. cbn [given_arg]. apply given_field. split; [cbn [read_before]; lia|]. eexists. split; reflexivity. }
    unfold given_size. cbn [f_size list_field build]. rewrite length_bytes, positions_bytes by lia.
    replace (8 * (4 + 4 * zlen l - 4)) with (8 * (4 * zlen l)) by lia. exact B2.
Qed.
(** A path of any length is restored, points and all, from exactly its bytes. *)
Theorem path_roundtrip h l o : zlen l < 2 ^ 32 -> Forall (fun p => 0 <= fst p < 65536 /\ - 32768 <= snd p < 32768) l ->
  Marshal.lookup o "points" = Some (points_of l) ->
  exists bytes o', buffer_pack (path h) o = (Ok bytes, o') /\ zlen bytes = 4 + 4 * zlen l
    /\ forall o2, exists o'', buffer_unpack (path h) (BArr bytes) o2 = (Ok (8 * zlen bytes), o'')
       /\ Marshal.lookup o'' "count" = Some (VInt (zlen l)) /\ Marshal.lookup o'' "points" = Some (points_of l).
Proof.
  intros Hl Hp Ho. destruct (path_laid_out h l o Hl Hp Ho) as (b1 & b2 & K). assert (L : 0 <= zlen l) by (unfold zlen; lia).
  assert (Pl : places (path_layout b1 b2 l) = byte_places [(0, 4); (4, 4 + 4 * zlen l)]) by reflexivity.
  destruct (layout_roundtrip (path h) (path_layout b1 b2 l) o (8 * (4 + 4 * zlen l)) (path_ok h) K) as (bytes & o' & P1 & P2 & (m & P3 & P4) & _ & P5 & P6).
  - rewrite Pl. apply byte_places_apart; repeat constructor; cbn [fst snd]; lia.
  - split; [discriminate|]. exists [32; 8 * (4 + 4 * zlen l)]. split; [|split].
    + repeat constructor; eexists; (split; [reflexivity|]); cbn [e_place]; [reflexivity|]. rewrite offset_bytes by lia. reflexivity.
    + repeat constructor; lia.
    + left. right. now left.
  - repeat constructor; cbn; intuition discriminate.
  - cbn [k_size path] in P4. assert (m = 8 * (4 + 4 * zlen l)).
    { apply (largest_stop_unique _ _ _ P3). rewrite Pl. apply byte_places_largest; [|eexists; right; left; reflexivity|lia]. intros p [<-|[<-|[]]]; cbn [snd]; lia. }
    subst m. assert (E : zlen bytes = 4 + 4 * zlen l) by lia. exists bytes, o'. split; [exact P1|]. split; [exact E|].
    intros o2. destruct (P6 (BArr bytes) [] o2 P2) as (o'' & U1 & U2 & _).
    + cbn [buf_bits]. now rewrite app_nil_r.
    + intros i y Hy. unfold path_layout in Hy. cbn [buf_bits]. rewrite bits_of_bytes_length, E.
      destruct i as [|[|i]]; cbn [nth_error] in Hy; [| |destruct i; discriminate]; apply (f_equal (fun x => match x with Some (Some e) => e | _ => y end)) in Hy; cbv beta iota in Hy; subst y; [now left|].
      right. exists [], 32. split; [reflexivity|]. split; [|constructor]. cbn [e_place app]. unfold at_bytes. do 3 f_equal. lia.
    + exists o''. rewrite E. split; [exact U1|]. inversion U2 as [|? ? ? ? V1 U3]; subst. inversion U3 as [|? ? ? ? V2 _]; subst. split; [exact V1|exact V2].
Qed.

(** ** Bit fields (tests/test_buffer_buffer.py) *)
(** class Nibbles(Buffer):
        lo = uint_field(where=bytes_ref[0].bits[0:4])
        mid = uint_field(where=bytes_ref[0].bits[4:8] + bytes_ref[2].bits[0:1])
        tail = uint_field(where=bytes_ref[1]) *)
Definition bits_fields (h : host) : list field :=
  [int_field h BNative false None (packet_kw "lo" 3 3 None); int_field h BNative false None (packet_kw "mid" 6 6 None);
   int_field h BNative false None (packet_kw "tail" 7 7 None)].
Definition bits_users : list uref :=
  [UConst (rbool true); UByteNum (num 0); UByteNum (num 2); UBitSlice (user 1) (num 0) (num 4); UBitSlice (user 1) (num 4) (num 8);
   UBitSlice (user 2) (num 0) (num 1); UList [ARef (user 4); ARef (user 5)]; UByteNum (num 1)].
Definition bits_class (h : host) : cls := mkCls (bits_fields h) bits_users (Some 17).
Lemma bits_made h : make_class (bits_fields h) bits_users = Ok (bits_class h).
Proof. apply make_class_by. destruct h; vm_compute; reflexivity. Qed.
Definition bits_places : list (list srange) := [[mkR 0 (Some 4)]; [mkR 4 (Some 8); mkR 16 (Some 17)]; [mkR 8 (Some 16)]].
Lemma pure_ev C i a v k : nth_error (k_users C) i = Some a -> pure_prog (nodes C) (user_prog C a) v k -> static (nodes C) (user i) v.
Proof. intros Hi H. exists (S k). constructor. unfold nodes. cbn [r_kind r_no user]. now rewrite Hi. Qed.
Lemma pure_ret_by C p v : p = PRet v -> pure_prog (nodes C) p v 0.
Proof. intros ->. constructor. Qed.
Lemma bits_places_static h i l : nth_error [[mkR 0 (Some 8)]; [mkR 16 (Some 24)]; [mkR 0 (Some 4)]; [mkR 4 (Some 8)]; [mkR 16 (Some 17)];
    [mkR 4 (Some 8); mkR 16 (Some 17)]; [mkR 8 (Some 16)]] i = Some l -> static (nodes (bits_class h)) (user (S i)) (RRanges l).
Proof.
  assert (H1 : static (nodes (bits_class h)) (user 1) (RRanges [mkR 0 (Some 8)])) by (eapply pure_ev; [reflexivity|apply pure_ret_by; reflexivity]).
  assert (H2 : static (nodes (bits_class h)) (user 2) (RRanges [mkR 16 (Some 24)])) by (eapply pure_ev; [reflexivity|apply pure_ret_by; reflexivity]).
  assert (H4 : static (nodes (bits_class h)) (user 4) (RRanges [mkR 4 (Some 8)])).
  { destruct H1 as (k & H1). eapply pure_ev; [reflexivity|]. cbn [user_prog]. eapply pure_ref; [exact H1|]. apply pure_ret_by. reflexivity. }
  assert (H5 : static (nodes (bits_class h)) (user 5) (RRanges [mkR 16 (Some 17)])).
  { destruct H2 as (k & H2). eapply pure_ev; [reflexivity|]. cbn [user_prog]. eapply pure_ref; [exact H2|]. apply pure_ret_by. reflexivity. }
  destruct i as [|[|[|[|[|[|[|i]]]]]]]; intros H; [injection H as <-..|destruct i; discriminate]; [exact H1|exact H2| |exact H4|exact H5| |].
  - destruct H1 as (k & H1). eapply pure_ev; [reflexivity|]. cbn [user_prog]. eapply pure_ref; [exact H1|]. apply pure_ret_by. reflexivity.
  - destruct H4 as (k & H4). destruct H5 as (k' & H5). eapply pure_ev; [reflexivity|]. cbn [user_prog ev_list ev].
    eapply pure_ref; [exact H4|]. eapply pure_ref; [exact H5|]. apply pure_ret_by. reflexivity.
  - eapply pure_ev; [reflexivity|apply pure_ret_by; reflexivity].
Qed.
Lemma bits_slots h lo mid tail : 0 <= lo < 16 -> 0 <= mid < 32 -> 0 <= tail < 256 ->
  Forall2 (fun f p => slot (bits_class h) f (fst p) (snd p)) (bits_fields h) (combine bits_places [VInt lo; VInt mid; VInt tail]).
Proof.
  intros Hl Hm Ht.
  assert (T : exists c, static (nodes (bits_class h)) (user 0) c /\ truthy c = true).
  { exists (rbool true). split; [|reflexivity]. eapply pure_ev; [reflexivity|apply pure_ret_by; reflexivity]. }
  unfold bits_places. cbn [combine]. constructor; [|constructor; [|constructor; [|constructor]]]; unfold slot; cbn [fst snd].
  - split; [apply bits_places_static; reflexivity|]. split; [apply bits_places_static; reflexivity|]. split; [exact T|]. split; [exact T|]. split; [reflexivity|]. split; [reflexivity|].
    split; [now left|]. exists [], 4. split; [constructor|]. change (zlen (all_positions [mkR 0 (Some 4)])) with 4. apply st_bits; [unfold odd_width; lia|lia|lia].
  - split; [apply bits_places_static; reflexivity|]. split; [apply bits_places_static; reflexivity|]. split; [exact T|]. split; [exact T|]. split; [reflexivity|]. split; [reflexivity|].
    split; [now left|]. exists [], 5. split; [constructor|]. change (zlen (all_positions [mkR 4 (Some 8); mkR 16 (Some 17)])) with 5. apply st_bits; [unfold odd_width; lia|lia|lia].
  - split; [apply bits_places_static; reflexivity|]. split; [apply bits_places_static; reflexivity|]. split; [exact T|]. split; [exact T|]. split; [reflexivity|]. split; [reflexivity|].
    split; [now left|]. exists [], 8. split; [constructor|]. change (zlen (all_positions [mkR 8 (Some 16)])) with (8 * width_in_bytes I8).
    apply st_int; [intros (E & _); discriminate|]. unfold int_fits. cbn [width_in_bytes]. lia.
Qed.
Lemma bits_apart : apart bits_places.
Proof.
  assert (D : forall a b c d, b <= c \/ d <= a -> ~ intersect (mkR a (Some b)) (mkR c (Some d))).
  { intros a b c d H (p & P1 & P2). unfold in_range in *. cbn [r_start r_stop] in *. lia. }
  unfold bits_places. split; [|split]; cbn [List.concat List.app].
  - repeat (apply Forall_cons; [split; [split; cbn; lia|discriminate]|]). apply Forall_nil.
  - repeat (apply FOP_cons; [repeat (apply Forall_cons; [apply D; lia|]); apply Forall_nil|]). apply FOP_nil.
  - apply Forall_cons; [left; eauto|]. apply Forall_cons; [right|apply Forall_cons; [left; eauto|apply Forall_nil]].
    repeat (apply Forall_cons; [split; [split; [cbn; lia|reflexivity]|cbn; lia]|]). apply Forall_nil.
Qed.

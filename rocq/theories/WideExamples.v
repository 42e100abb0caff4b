(** The pages of tests/test_buffer_ses.py, for all their objects: lists with a number of elements one behind the
    other, numbers of elements computed by a member function, and texts whose lengths stand elsewhere. *)
From Verif Require Import Base BaseProofs IntCodec CodecSpec Stream Marshal FieldSpec FieldFacts Range RangeRef RangeSpec RangeFacts RangeArith
  IoBuffer IoSpec IoProofs IoFacts IoOutput Serialize SerializeSpec SerializeFacts SerializeLists
  RefEngine RefSpec RefProofs RefStatic RefSteady BufferModel BufferSpec SeeSpec WideSpec BufferPlace BufferFacts BufferPack BufferLayout BufferTrip BufferDep
  BufferMacros BufferCodecSpec BufferCodecs BufferErrors BufferClass BufferNested BufferExamples BufferReads SelectModel SelectSpec SelectProofs ContextsFacts WideProofs.
From Coq Require Import ZArith List Bool String Lia ZifyBool ZifyNat.
Import ListNotations.
Open Scope string_scope.
Open Scope list_scope.
Open Scope Z_scope.
Ltac Zify.zify_post_hook ::= Z.div_mod_to_equations.

(** The value of the member function: the sum of an attribute over the objects of a list. *)
Fixpoint sum_attr (n : name) (l : list value) : res Z :=
  match l with
  | [] => Ok 0
  | VObj _ a :: r => match Marshal.lookup a n with
                     | Some (VInt k) => let* s := sum_attr n r in Ok (k + s)
                     | Some _ => Err TypeError
                     | None => Err AttributeError
                     end
  | _ :: _ => Err AttributeError
  end.
(** tests/test_buffer_ses.py:81-82 and 103-104 *)
Definition calc_num_headers (_ : list rv) (a : attrs) : res rv * attrs :=
  (match Marshal.lookup a "enclosure_descriptor_list" with
   | Some (VList l) => let* s := sum_attr "type_descriptor_headers_num" l in Ok (RVal (VInt s))
   | Some _ => Err TypeError
   | None => Err AttributeError
   end, a).
(** tests/test_buffer_ses.py:84-86 *)
Definition unpack_text (a : attrs) (i : Z) (b : buf) : res selection :=
  match Marshal.lookup a "type_descriptor_header_list" with
  | Some (VList l) =>
      match nth_error l (Z.to_nat i) with
      | Some (VObj _ x) =>
          match Marshal.lookup x "type_descriptor_text_length" with
          | Some (VInt n) => let* s := buf_slice b (Some 0) (Some (8 * n)) in
                             let* t := to_bytes s in Ok (SelPair (VBytes t) (Some (8 * n)))
          | Some _ => Err TypeError
          | None => Err AttributeError
          end
      | Some _ => Err AttributeError
      | None => Err KeyError
      end
  | Some _ => Err TypeError
  | None => Err AttributeError
  end.

(** tests/test_buffer_ses.py:80-104, with any classes for the elements of the two lists of objects:
      page_code = be_int_field(where=bytes_ref[0])
      secondary_subenclosures_num = be_int_field(where=bytes_ref[1])
      page_length = be_int_field(where=bytes_ref[2:4], set_before_pack=total_size - 4)
      generation_code = be_int_field(where=bytes_ref[4:8])
      enclosure_descriptor_list = list_field(type=D, where=bytes_ref[8:], n=secondary_subenclosures_num + 1)
      type_descriptor_header_list = list_field(where=bytes_ref[after_ref(enclosure_descriptor_list):], type=H,
                                               n=member_func_ref(_calc_num_type_descriptor_headers))
      type_descriptor_text_list = list_field(where=bytes_ref[after_ref(type_descriptor_header_list):], type=str_type,
                                             unpack_selector=_unpack_type_descriptor_text,
                                             n=member_func_ref(_calc_num_type_descriptor_headers)) *)
Definition page_fields (h : host) (nmD : name) (D : cls) (nmH : name) (H : cls) : list field :=
  [list_field (EBuffer nmD D) (ARef (user 2)) None (packet_kw "enclosure_descriptor_list" 1 1 None);
   int_field h BBig true None (packet_kw "generation_code" 3 3 None);
   int_field h BBig true None (packet_kw "page_code" 4 4 None);
   int_field h BBig true None (packet_kw "page_length" 5 5 (Some (BRef (user 7))));
   int_field h BBig true None (packet_kw "secondary_subenclosures_num" 8 8 None);
   list_field (EBuffer nmH H) (ARef (user 11)) None (packet_kw "type_descriptor_header_list" 10 10 None);
   list_field (EStr (AText [32]) (AText [0]) JLeft None) (ARef (user 14)) (Some unpack_text) (packet_kw "type_descriptor_text_list" 13 13 None)].
Definition page_users : list uref :=
  [UConst (rbool true);
   UByteSlice (num 8) (AConst (RVal VNone)); UNum OpAdd (ARef (mkRid KField 4)) (num 1);
   UByteSlice (num 4) (num 8); UByteNum (num 0); UByteSlice (num 2) (num 4); UTotal; UNum OpSub (ARef (user 6)) (num 4); UByteNum (num 1);
   UAfter 0; UByteSlice (ARef (user 9)) (AConst (RVal VNone)); UMember calc_num_headers [];
   UAfter 5; UByteSlice (ARef (user 12)) (AConst (RVal VNone)); UMember calc_num_headers []].
Definition page (h : host) (nmD : name) (D : cls) (nmH : name) (H : cls) : cls := mkCls (page_fields h nmD D nmH H) page_users None.
Lemma page_made h nmD D nmH H : make_class (page_fields h nmD D nmH H) page_users = Ok (page h nmD D nmH H).
Proof. apply make_class_by. destruct h; vm_compute; reflexivity. Qed.
Lemma page_ok h nmD D nmH H : cls_ok (page h nmD D nmH H).
Proof. class_ok. Qed.

(** Where [bytes_ref[n]] is. *)
Lemma given_byte C know k n : nth_error (k_users C) k = Some (UByteNum (num n)) -> 0 <= n -> given C know (user k) (RRanges (at_bytes n (n + 1))).
Proof.
  intros E Hn. eapply given_user; [exact E|]. cbn [user_prog]. eapply given_ev; [reflexivity|]. apply given_retr.
  unfold num_ranges. cbn [num_bits rbind]. replace (0 <=? 8 * n) with true by lia. cbn [passert rbind]. unfold mk_srange, at_bytes.
  replace (0 <=? 8 * n) with true by lia. replace (0 <=? 8 * n + 8) with true by lia. replace (8 * n <=? 8 * n + 8) with true by lia.
  cbn [andb passert rbind]. replace (8 * (n + 1)) with (8 * n + 8) by lia. reflexivity.
Qed.
Lemma given_open C know k a n : nth_error (k_users C) k = Some (UByteSlice a (AConst (RVal VNone))) -> given_arg C know a (RVal (VInt n)) -> 0 <= n ->
  given C know (user k) (RRanges [mkR (8 * n) None]).
Proof. intros E Ha Hn. eapply given_slice; [exact E|exact Ha|reflexivity|]. now apply slice_open. Qed.

Lemma at_bytes_neat x y : 0 <= x -> x <= y -> neat (at_bytes x y).
Proof.
  intros H1 H2. split; [|split].
  - constructor; [|constructor]. split; [split; cbn [r_start r_stop]; lia|discriminate].
  - constructor; constructor.
  - left. eexists. reflexivity.
Qed.
Lemma wide_at f uargs (ok : attrs -> Prop) wide w1 r1 v1 u1 w r v used x y b l : f_size f = None -> 0 <= x -> y = x + zlen l ->
  view_with b (bits_of_bytes l) -> reads_start f uargs ok (bits_of_bytes l) v used ->
  reads_within f uargs ok wide (mkEntry w1 r1 (at_bytes x y) v1 b u1) (mkEntry w r (at_bytes x y) v b used).
Proof.
  intros Hf Hx -> (K1 & K2 & K3) R. pose proof (zlen_nonneg l). apply wide_reads; cbn [e_place e_buf e_value e_used]; [exact Hf|apply at_bytes_neat; lia| | |].
  - rewrite K3, bits_of_bytes_length. lia.
  - rewrite positions_bytes, K3, bits_of_bytes_length by lia. lia.
  - now rewrite K3.
Qed.

(** Objects with the bytes they are packed as. *)
Definition elems (nm : name) (l : list (attrs * list Z)) : list value := map (fun x : attrs * list Z => VObj nm (fst x)) l.
Definition elem_bytes (l : list (attrs * list Z)) : list Z := List.concat (map snd l).
Definition restorable (nm : name) (C : cls) (x : attrs * list Z) : Prop :=
  restores_prefix nm C (fst x) (snd x) (8 * zlen (snd x)) /\ snd x <> [].
Lemma elem_bits l : concat_bits (map (fun x : attrs * list Z => bits_of_bytes (snd x)) l) = bits_of_bytes (elem_bytes l).
Proof. unfold elem_bytes. rewrite <- concat_map_bits, map_map. reflexivity. Qed.
Lemma elems_codec nm C count k l : Forall (restorable nm C) l ->
  (exists b, f_pack (list_field (EBuffer nm C) count None k) [] (VList (elems nm l)) None = Ok b /\ view_with b (bits_of_bytes (elem_bytes l)))
  /\ forall ok : attrs -> Prop, reads_start (list_field (EBuffer nm C) count None k) [RVal (VInt (zlen l))] ok (bits_of_bytes (elem_bytes l)) (VList (elems nm l)) (Some (8 * zlen (elem_bytes l))).
Proof.
  intros F. rewrite <- elem_bits. split; [|intros ok].
  - apply list_packs. unfold elems. clear - F. induction F as [|x l (((R1 & R2) & _) & _) F IH]; cbn [map]; constructor; auto.
    exists (BArr (snd x)). split; [|split; [exact R1|reflexivity]]. cbn [elem_pack pack_buffer]. destruct x as [a y]. cbn [fst snd] in *. rewrite R2. reflexivity.
  - replace (8 * zlen (elem_bytes l)) with (zlen (concat_bits (map (fun x : attrs * list Z => bits_of_bytes (snd x)) l))) by (rewrite elem_bits; apply bits_of_bytes_length).
    replace (zlen l) with (zlen (elems nm l)) by (unfold elems, zlen; now rewrite map_length).
    apply list_starts; unfold elems; clear - F; induction F as [|x l (R & N) F IH]; cbn [map]; constructor; auto.
    + intros size i b rest V. rewrite bits_of_bytes_length. cbn [elem_unpack]. exact (proj2 R b rest V).
    + rewrite bits_of_bytes_length. destruct (snd x) as [|y r]; [congruence|]. rewrite zlen_cons. pose proof (zlen_nonneg r). lia.
Qed.
(** Texts. *)
Definition texts_codec_ok (t : list Z) : Prop := is_ascii t /\ t <> [].
Lemma texts_pack count sel k ts : Forall texts_codec_ok ts ->
  exists b, f_pack (list_field (EStr (AText [32]) (AText [0]) JLeft None) count sel k) [] (VList (map VStr ts)) None = Ok b
    /\ view_with b (bits_of_bytes (List.concat ts)).
Proof.
  intros F. rewrite <- concat_map_bits. apply list_packs. induction F as [|t ts (T1 & T2) F IH]; cbn [map]; constructor; auto.
  exists (BArr t). split; [|split; [now apply ascii_bytes|reflexivity]]. cbn [elem_pack].
  unfold pack_str. cbn. rewrite (proj1 (ascii_ok t T1)). reflexivity.
Qed.
Definition announces (t : list Z) (x : attrs * list Z) : Prop := Marshal.lookup (fst x) "type_descriptor_text_length" = Some (VInt (zlen t)).
Lemma texts_start count k ts nm hs (ok : attrs -> Prop) : Forall texts_codec_ok ts -> Forall2 announces ts hs ->
  (forall a, ok a -> Marshal.lookup a "type_descriptor_header_list" = Some (VList (elems nm hs))) ->
  reads_start (list_field (EStr (AText [32]) (AText [0]) JLeft None) count (Some unpack_text) k) [RVal (VInt (zlen ts))] ok
    (bits_of_bytes (List.concat ts)) (VList (map VBytes ts)) (Some (8 * zlen (List.concat ts))).
Proof.
  intros F A Hok. rewrite <- bits_of_bytes_length, <- concat_map_bits.
  replace (zlen ts) with (zlen (map VBytes ts)) by (unfold zlen; now rewrite map_length). apply chosen_list_starts.
  - intros a i v x Ha Hv Hx s rest (S1 & S2 & S3). rewrite nth_error_map in Hv, Hx. destruct (nth_error ts i) as [t|] eqn:Ht; [|discriminate].
    cbn [option_map] in *. injection Hv as <-. injection Hx as <-.
    pose proof (proj1 (Forall_forall _ _) F t (nth_error_In _ _ Ht)) as (T1 & T2).
    apply Forall2_nth_iff in A. destruct A as (L & A). assert (Hi : (i < List.length hs)%nat) by (rewrite <- L; apply nth_error_Some; congruence).
    destruct (nth_error hs i) as [x|] eqn:Hx; [|apply nth_error_None in Hx; lia]. specialize (A i t x Ht Hx). unfold announces in A.
    unfold unpack_text. rewrite (Hok a Ha), Nat2Z.id. unfold elems. rewrite nth_error_map, Hx. cbn [option_map]. rewrite A.
    destruct (prefix_bytes s (8 * zlen t) t S1 S2) as (p & P1 & P2); try reflexivity.
    + pose proof (zlen_nonneg t). lia.
    + now apply ascii_bytes.
    + rewrite S3. replace (Z.to_nat (8 * zlen t)) with (List.length (bits_of_bytes t)) by (pose proof (bits_of_bytes_length t); unfold zlen in *; lia).
      rewrite firstn_app, Nat.sub_diag, firstn_O, app_nil_r. apply firstn_all.
    + rewrite P1. cbn [rbind]. rewrite P2. cbn [rbind selected]. now rewrite bits_of_bytes_length.
  - now rewrite !map_length.
  - clear - F. induction F as [|t ts (T1 & T2) F IH]; cbn [map]; constructor; auto. rewrite bits_of_bytes_length. destruct t as [|y r]; [congruence|].
    rewrite zlen_cons. pose proof (zlen_nonneg r). lia.
Qed.
(** The numbers of headers that the descriptors announce. *)
Definition counts (k : Z) (x : attrs * list Z) : Prop := Marshal.lookup (fst x) "type_descriptor_headers_num" = Some (VInt k).
Lemma sum_counts nm ks ds : Forall2 counts ks ds -> sum_attr "type_descriptor_headers_num" (elems nm ds) = Ok (fold_right Z.add 0 ks).
Proof. unfold elems. induction 1 as [|k x ks ds E F IH]; cbn [map sum_attr fold_right]; [reflexivity|]. rewrite E, IH. reflexivity. Qed.

Section Page.
Variables (h : host) (nmD : name) (D : cls) (nmH : name) (H : cls).
Let C := page h nmD D nmH H.
Variables (ds hs : list (attrs * list Z)) (ks : list Z) (ts : list (list Z)) (pc gc ns : Z) (o : attrs).
Hypothesis Hds : Forall (restorable nmD D) ds.
Hypothesis Hhs : Forall (restorable nmH H) hs.
Hypothesis Hks : Forall2 counts ks ds.
Hypothesis Hts : Forall texts_codec_ok ts.
Hypothesis Hann : Forall2 announces ts hs.
Hypothesis Hns : ns + 1 = zlen ds.
Hypothesis Hsum : fold_right Z.add 0 ks = zlen hs.
Hypothesis Rpc : - 128 <= pc < 128.
Hypothesis Rns : ns < 128.
Hypothesis Rgc : - 2 ^ 31 <= gc < 2 ^ 31.
Definition page_end : Z := 8 + zlen (elem_bytes ds) + zlen (elem_bytes hs) + zlen (List.concat ts).
Hypothesis Rlen : page_end < 4 + 2 ^ 15.
Hypothesis Ho0 : Marshal.lookup o "enclosure_descriptor_list" = Some (VList (elems nmD ds)).
Hypothesis Ho1 : Marshal.lookup o "generation_code" = Some (VInt gc).
Hypothesis Ho2 : Marshal.lookup o "page_code" = Some (VInt pc).
Hypothesis Ho4 : Marshal.lookup o "secondary_subenclosures_num" = Some (VInt ns).
Hypothesis Ho5 : Marshal.lookup o "type_descriptor_header_list" = Some (VList (elems nmH hs)).
Hypothesis Ho6 : Marshal.lookup o "type_descriptor_text_list" = Some (VList (map VStr ts)).

Definition page_layout (b0 b1 b2 b3 b4 b5 b6 : buf) (texts : list value) : layout :=
  let x := 8 + zlen (elem_bytes ds) in
  let y := x + zlen (elem_bytes hs) in
  [Some (mkEntry [mkR 64 None] [mkR 64 None] (at_bytes 8 x) (VList (elems nmD ds)) b0 (Some (8 * zlen (elem_bytes ds))));
   Some (mkEntry (at_bytes 4 8) (at_bytes 4 8) (at_bytes 4 8) (VInt gc) b1 (Some 32));
   Some (mkEntry (at_bytes 0 1) (at_bytes 0 1) (at_bytes 0 1) (VInt pc) b2 (Some 8));
   Some (mkEntry (at_bytes 2 4) (at_bytes 2 4) (at_bytes 2 4) (VInt (page_end - 4)) b3 (Some 16));
   Some (mkEntry (at_bytes 1 2) (at_bytes 1 2) (at_bytes 1 2) (VInt ns) b4 (Some 8));
   Some (mkEntry [mkR (8 * x) None] [mkR (8 * x) None] (at_bytes x y) (VList (elems nmH hs)) b5 (Some (8 * zlen (elem_bytes hs))));
   Some (mkEntry [mkR (8 * y) None] [mkR (8 * y) None] (at_bytes y page_end) (VList texts) b6 (Some (8 * zlen (List.concat ts))))].
Definition page_wide (i : nat) : bool := match i with 0%nat | 5%nat | 6%nat => true | _ => false end.
Lemma page_places b0 b1 b2 b3 b4 b5 b6 texts : places (page_layout b0 b1 b2 b3 b4 b5 b6 texts) =
  byte_places [(8, 8 + zlen (elem_bytes ds)); (4, 8); (0, 1); (2, 4); (1, 2);
    (8 + zlen (elem_bytes ds), 8 + zlen (elem_bytes ds) + zlen (elem_bytes hs)); (8 + zlen (elem_bytes ds) + zlen (elem_bytes hs), page_end)].
Proof. reflexivity. Qed.
Lemma page_sizes : 0 <= zlen (elem_bytes ds) /\ 0 <= zlen (elem_bytes hs) /\ 0 <= zlen (List.concat ts).
Proof. repeat split; apply zlen_nonneg. Qed.
Lemma page_largest b0 b1 b2 b3 b4 b5 b6 texts : largest_stop (List.concat (places (page_layout b0 b1 b2 b3 b4 b5 b6 texts))) (8 * page_end).
Proof.
  rewrite page_places. pose proof page_sizes. apply byte_places_largest; unfold page_end in *; [|eexists; do 6 right; left; reflexivity|lia].
  intros p Hp. cbn [In] in Hp. repeat (destruct Hp as [<-|Hp]; [cbn [snd]; lia|]). destruct Hp.
Qed.
Lemma page_apart b0 b1 b2 b3 b4 b5 b6 texts : apart (places (page_layout b0 b1 b2 b3 b4 b5 b6 texts)).
Proof. rewrite page_places. pose proof page_sizes. unfold page_end.
  apply byte_places_apart; repeat first [apply Forall_nil|apply FOP_nil|apply FOP_cons|apply Forall_cons]; cbn [fst snd]; lia.
Qed.

Lemma page_laid_out : exists b0 b1 b2 b3 b4 b5 b6,
  class_layout_within C (page_layout b0 b1 b2 b3 b4 b5 b6 (map VStr ts)) (page_layout b0 b1 b2 b3 b4 b5 b6 (map VBytes ts)) o [] page_wide.
Proof.
  destruct (elems_codec nmD D (ARef (user 2)) (packet_kw "enclosure_descriptor_list" 1 1 None) ds Hds) as ((b0 & P0 & V0) & U0).
  destruct (elems_codec nmH H (ARef (user 11)) (packet_kw "type_descriptor_header_list" 10 10 None) hs Hhs) as ((b5 & P5 & V5) & U5).
  destruct (texts_pack (ARef (user 14)) (Some unpack_text) (packet_kw "type_descriptor_text_list" 13 13 None) ts Hts) as (b6 & P6 & V6).
  destruct (stores_packed (int_field h BBig true None (packet_kw "generation_code" 3 3 None)) (Some 32) [] 32 (VInt gc) 32 []) as (b1 & B1 & _).
  { apply (st_int h BBig true None _ I32); [intros (E & _); discriminate|]. unfold int_fits. cbn [width_in_bytes]. lia. }
  destruct (stores_packed (int_field h BBig true None (packet_kw "page_code" 4 4 None)) (Some 8) [] 8 (VInt pc) 8 []) as (b2 & B2 & _).
  { apply (st_int h BBig true None _ I8); [intros (E & _); discriminate|]. unfold int_fits. cbn [width_in_bytes]. lia. }
  pose proof page_sizes as (S1 & S2 & S3).
  destruct (stores_packed (int_field h BBig true None (packet_kw "page_length" 5 5 (Some (BRef (user 7))))) (Some 16) [] 16 (VInt (page_end - 4)) 16 []) as (b3 & B3 & _).
  { apply (st_int h BBig true None _ I16); [intros (E & _); discriminate|]. unfold int_fits. cbn [width_in_bytes]. unfold page_end in *. lia. }
  destruct (stores_packed (int_field h BBig true None (packet_kw "secondary_subenclosures_num" 8 8 None)) (Some 8) [] 8 (VInt ns) 8 []) as (b4 & B4 & _).
  { apply (st_int h BBig true None _ I8); [intros (E & _); discriminate|]. unfold int_fits. cbn [width_in_bytes]. pose proof (zlen_nonneg ds). lia. }
  exists b0, b1, b2, b3, b4, b5, b6.
  set (lay := page_layout b0 b1 b2 b3 b4 b5 b6 (map VStr ts)). set (back := page_layout b0 b1 b2 b3 b4 b5 b6 (map VBytes ts)).
  assert (T : forall know, exists c, given C know (user 0) c /\ truthy c = true).
  { intros know. exists (rbool true). split; [now apply given_const|reflexivity]. }
  assert (W0 : forall know, given C know (user 1) (RRanges [mkR 64 None])).
  { intros know. eapply given_slice; [reflexivity|reflexivity|reflexivity|]. reflexivity. }
  assert (W1 : forall know, given C know (user 3) (RRanges (at_bytes 4 8))).
  { intros know. eapply given_slice; [reflexivity|reflexivity|reflexivity|]. reflexivity. }
  assert (W2 : forall know, given C know (user 4) (RRanges (at_bytes 0 1))).
  { intros know. now apply given_byte. }
  assert (W3 : forall know, given C know (user 5) (RRanges (at_bytes 2 4))).
  { intros know. eapply given_slice; [reflexivity|reflexivity|reflexivity|]. reflexivity. }
  assert (W4 : forall know, given C know (user 8) (RRanges (at_bytes 1 2))).
  { intros know. now apply given_byte. }
  assert (W5 : forall know : lfact -> Prop, know (FEnd 0 (8 * (8 + zlen (elem_bytes ds)))) ->
                 given C know (user 10) (RRanges [mkR (8 * (8 + zlen (elem_bytes ds))) None])).
  { intros know K. eapply given_open; [reflexivity| |lia]. cbn [given_arg]. rewrite <- rnum_bytes. apply (given_after _ _ 9%nat 0%nat); [reflexivity|exact K]. }
  assert (W6 : forall know : lfact -> Prop, know (FEnd 5 (8 * (8 + zlen (elem_bytes ds) + zlen (elem_bytes hs)))) ->
                 given C know (user 13) (RRanges [mkR (8 * (8 + zlen (elem_bytes ds) + zlen (elem_bytes hs))) None])).
  { intros know K. eapply given_open; [reflexivity| |lia]. cbn [given_arg]. rewrite <- rnum_bytes. apply (given_after _ _ 12%nat 5%nat); [reflexivity|exact K]. }
  assert (E0 : forall texts (P : lfact -> Prop), P (FEnd 0 (8 * (8 + zlen (elem_bytes ds)))) ->
                 known (page_layout b0 b1 b2 b3 b4 b5 b6 texts) P (FEnd 0 (8 * (8 + zlen (elem_bytes ds))))).
  { intros texts P HP. split; [exact HP|]. eexists. split; [reflexivity|]. cbn [e_place e_used e_read]. split.
    - apply (byte_places_largest [(8, 8 + zlen (elem_bytes ds))]); [|eexists; now left|lia]. intros p [<-|[]]. cbn [snd]. lia.
    - right. f_equal. rewrite positions_bytes by lia. lia. }
  assert (E5 : forall texts (P : lfact -> Prop), P (FEnd 5 (8 * (8 + zlen (elem_bytes ds) + zlen (elem_bytes hs)))) ->
                 known (page_layout b0 b1 b2 b3 b4 b5 b6 texts) P (FEnd 5 (8 * (8 + zlen (elem_bytes ds) + zlen (elem_bytes hs))))).
  { intros texts P HP. split; [exact HP|]. eexists. split; [reflexivity|]. cbn [e_place e_used e_read]. split.
    - apply (byte_places_largest [(8 + zlen (elem_bytes ds), 8 + zlen (elem_bytes ds) + zlen (elem_bytes hs))]); [|eexists; now left|lia]. intros p [<-|[]]. cbn [snd]. lia.
    - right. f_equal. rewrite positions_bytes by lia. lia. }
  assert (Lb : forall b l, view_with b (bits_of_bytes l) -> blen b = zlen l).
  { intros b l (K1 & _ & K3). rewrite blen_cdiv, <- buf_bits_len, K3, bits_of_bytes_length by exact K1. unfold cdiv8. lia. }
  pose proof (Lb _ _ V0) as L0. pose proof (Lb _ _ V5) as L5. pose proof (Lb _ _ V6) as L6. clear Lb.
  assert (Op : forall a x b, x = a + blen b -> open_until [mkR (8 * a) None] (at_bytes a x) (fun front y => y + 8 * blen b - zlen (all_positions front))).
  { intros a x b ->. right. exists [], (8 * a). split; [reflexivity|]. split; [|constructor]. unfold at_bytes. cbn [app all_positions flat_map]. change (zlen []) with 0. do 3 f_equal. lia. }
  assert (Lw : forall b l x, view_with b (bits_of_bytes l) -> x = 8 * zlen l -> x <= zlen (pad_to_byte (buf_bits b))).
  { intros b l x (_ & _ & K3) ->. rewrite K3, zlen_pad, bits_of_bytes_length. unfold cdiv8. lia. }
  assert (Member : forall know sees k, nth_error page_users k = Some (UMember calc_num_headers []) -> In 0%nat sees ->
            sgiven C know (sight C back [] sees) (user k) (RVal (VInt (zlen hs)))).
  { intros know sees k Hk Hin. apply sgiven_user. unfold nodes. cbn [r_kind r_no]. change (k_users C) with page_users. rewrite Hk. cbn [user_prog ev_list].
    apply (sgiven_look C know _ _ _ (RVal (VInt (zlen hs)))); [|constructor]. intros s (Hs & _). pose proof (Hs 0%nat _ Hin eq_refl) as E.
    unfold layout_value, back, page_layout in E. cbn [nth_error e_value f_name list_field build kw_name packet_kw] in E. unfold calc_num_headers. rewrite E.
    rewrite (sum_counts nmD ks ds Hks), Hsum. cbn [rbind]. now destruct s. }
  set (urank := fun i => match i with 0%nat => 1%nat | 5%nat => 2%nat | 6%nat => 3%nat | _ => 0%nat end).
  assert (Turn : forall sees i, Forall (fun j => (j < i)%nat) sees -> (i < 7)%nat -> (forall k, (k < i)%nat -> (urank k < urank i)%nat) -> in_turn C back urank sees i).
  { intros sees i Hs Hi Hu. split; [exact Hs|]. intros k g Hk Hg. split; [apply Hu|].
    destruct k as [|[|[|[|[|[|[|k]]]]]]]; [| | | | | | |lia]; cbn [k_fields page page_fields nth_error C] in Hg; injection Hg as <-; (split; [apply T|constructor]). }
  split; [|split; [reflexivity|split; [constructor|]]].
  - split; [reflexivity|]. exists (fun i => match i with 3%nat => 10%nat | _ => 0%nat end), (fun i => match i with 0%nat => 1%nat | 5%nat => 2%nat | 6%nat => 3%nat | _ => 0%nat end).
    intros [|[|[|[|[|[|[|i]]]]]]] f Hf; cbn [k_fields page page_fields nth_error C] in Hf; [| | | | | | |destruct i; discriminate]; injection Hf as <-;
      unfold lay at 1, page_layout at 1; cbn [nth_error]; unfold packed_as; cbn [e_write e_read e_place e_value e_buf e_used].
    + split; [apply W0|]. split; [apply (Op 8); lia|]. split; [intros _; lia|]. split; [apply T|]. split; [exact Ho0|].
      exists []. split; [constructor|]. split; [exact P0|]. split; [apply V0|]. rewrite positions_bytes by lia. apply (Lw _ _ _ V0). lia.
    + split; [apply W1|]. split; [now left|]. split; [congruence|]. split; [apply T|]. split; [exact Ho1|]. exists []. split; [constructor|]. now destruct B1 as (K1 & K2 & K3 & _).
    + split; [apply W2|]. split; [now left|]. split; [congruence|]. split; [apply T|]. split; [exact Ho2|]. exists []. split; [constructor|]. now destruct B2 as (K1 & K2 & K3 & _).
    + split; [apply W3|]. split; [now left|]. split; [congruence|]. split; [apply T|]. split.
      { unfold value_to_pack. cbn [f_before int_field build kw_before packet_kw]. eapply given_num; [reflexivity| |reflexivity|apply num_op_sub]. cbn [given_arg].
        rewrite <- rnum_bytes. apply given_total; [reflexivity|reflexivity|]. split; [intros i; destruct i as [|[|[|[|[|[|[|i]]]]]]]; lia|]. split; [|apply page_largest].
        repeat (apply Forall_cons; [eexists; reflexivity|]). apply Forall_nil. }
      exists []. split; [constructor|]. now destruct B3 as (K1 & K2 & K3 & _).
    + split; [apply W4|]. split; [now left|]. split; [congruence|]. split; [apply T|]. split; [exact Ho4|]. exists []. split; [constructor|]. now destruct B4 as (K1 & K2 & K3 & _).
    + split; [apply W5, E0; cbn [below]; lia|]. split; [apply Op; lia|]. split; [intros _; lia|]. split; [apply T|]. split; [exact Ho5|].
      exists []. split; [constructor|]. split; [exact P5|]. split; [apply V5|]. rewrite positions_bytes by lia. apply (Lw _ _ _ V5). lia.
    + split; [apply W6, E5; cbn [below]; lia|]. split; [apply Op; unfold page_end; lia|]. split; [intros _; lia|]. split; [apply T|]. split; [exact Ho6|].
      exists []. split; [constructor|]. split; [exact P6|]. split; [apply V6|]. rewrite positions_bytes by (unfold page_end; lia). apply (Lw _ _ _ V6). unfold page_end. lia.
  - exists urank, (fun i => match i with 5%nat => [0%nat] | 6%nat => [0%nat; 5%nat] | _ => [] end).
    intros [|[|[|[|[|[|[|i]]]]]]] f Hf; cbn [k_fields page page_fields nth_error C] in Hf; [| | | | | | |destruct i; discriminate]; injection Hf as <-;
      (split; [|unfold lay at 1, back at 1, page_layout at 1 2; cbn [nth_error page_wide]]);
      try (now left).
    + apply (back_as _ _ _ _ _ _ _ _ _ _ [RVal (VInt (zlen ds))]); [reflexivity|apply sgiven_given, W0|apply T|reflexivity|constructor| |].
      * constructor; [|constructor]. cbn [sgiven_arg]. apply sgiven_given. rewrite <- Hns. eapply given_num; [reflexivity| |reflexivity|apply num_op_add].
        cbn [given_arg]. apply given_field. split; [unfold read_before, urank; lia|]. eexists. split; reflexivity.
      * eapply wide_at; [reflexivity|lia|reflexivity|exact V0|apply U0].
    + apply (back_as _ _ _ _ _ _ _ _ _ _ []); [reflexivity|apply sgiven_given, W1|apply T|reflexivity|constructor|constructor|].
      eapply (narrow_reads _ [] _ _ (Some 32)); [reflexivity|reflexivity|]. apply codec_if. exact B1.
    + apply (back_as _ _ _ _ _ _ _ _ _ _ []); [reflexivity|apply sgiven_given, W2|apply T|reflexivity|constructor|constructor|].
      eapply (narrow_reads _ [] _ _ (Some 8)); [reflexivity|reflexivity|]. apply codec_if. exact B2.
    + apply (back_as _ _ _ _ _ _ _ _ _ _ []); [reflexivity|apply sgiven_given, W3|apply T|reflexivity|constructor|constructor|].
      eapply (narrow_reads _ [] _ _ (Some 16)); [reflexivity|reflexivity|]. apply codec_if. exact B3.
    + apply (back_as _ _ _ _ _ _ _ _ _ _ []); [reflexivity|apply sgiven_given, W4|apply T|reflexivity|constructor|constructor|].
      eapply (narrow_reads _ [] _ _ (Some 8)); [reflexivity|reflexivity|]. apply codec_if. exact B4.
    + right. apply Turn; [|lia|]; [repeat constructor|]. intros [|[|[|[|[|k]]]]] Hk; unfold urank; lia.
    + apply (back_as _ _ _ _ _ _ _ _ _ _ [RVal (VInt (zlen hs))]); [reflexivity|apply sgiven_given, W5, E0; unfold read_before, urank; lia|apply T|reflexivity|constructor| |].
      * constructor; [|constructor]. cbn [sgiven_arg]. apply Member; [reflexivity|now left].
      * eapply wide_at; [reflexivity|lia|reflexivity|exact V5|apply U5].
    + right. apply Turn; [|lia|]; [repeat constructor|]. intros [|[|[|[|[|[|k]]]]]] Hk; unfold urank; lia.
    + apply (back_as _ _ _ _ _ _ _ _ _ _ [RVal (VInt (zlen ts))]); [reflexivity|apply sgiven_given, W6, E5; unfold read_before, urank; lia|apply T|reflexivity|constructor| |].
      * constructor; [|constructor]. cbn [sgiven_arg]. replace (zlen ts) with (zlen hs) by (unfold zlen; now rewrite (Forall2_len _ _ _ Hann)). apply Member; [reflexivity|now left].
      * eapply wide_at; [reflexivity|lia|unfold page_end; reflexivity|exact V6|]. apply (texts_start _ _ ts nmH hs); auto.
        intros a (Ha & _). exact (Ha 5%nat _ (or_intror (or_introl eq_refl)) eq_refl).
Qed.
Theorem page_roundtrip : exists bytes o', buffer_pack C o = (Ok bytes, o') /\ bytes_ok bytes /\ zlen bytes = page_end
  /\ Marshal.lookup o' "page_length" = Some (VInt (zlen bytes - 4))
  /\ forall rest o2, bytes_ok rest -> exists o'', buffer_unpack C (BArr (bytes ++ rest)) o2 = (Ok (8 * zlen bytes), o'')
     /\ Marshal.lookup o'' "page_code" = Some (VInt pc)
     /\ Marshal.lookup o'' "secondary_subenclosures_num" = Some (VInt ns)
     /\ Marshal.lookup o'' "page_length" = Some (VInt (zlen bytes - 4))
     /\ Marshal.lookup o'' "generation_code" = Some (VInt gc)
     /\ Marshal.lookup o'' "enclosure_descriptor_list" = Some (VList (elems nmD ds))
     /\ Marshal.lookup o'' "type_descriptor_header_list" = Some (VList (elems nmH hs))
     /\ Marshal.lookup o'' "type_descriptor_text_list" = Some (VList (map VBytes ts)).
Proof.
  destruct page_laid_out as (b0 & b1 & b2 & b3 & b4 & b5 & b6 & K). pose proof page_sizes as (S1 & S2 & S3).
  destruct (layout_roundtrip_within C _ _ o [] page_wide (8 * page_end) (page_ok h nmD D nmH H) K (page_apart _ _ _ _ _ _ _ _))
    as (bytes & o' & P1 & P2 & (m & P3 & P4) & _ & P5 & P6).
  - exact Logic.I.
  - split; [discriminate|]. exists [8 * (8 + zlen (elem_bytes ds)); 64; 8; 32; 16; 8 * (8 + zlen (elem_bytes ds) + zlen (elem_bytes hs)); 8 * page_end]. split; [|split].
    + repeat (apply Forall2_cons; [eexists; split; [reflexivity|]|]); try apply Forall2_nil; cbn [e_place]; try reflexivity.
      * rewrite offset_bytes by lia. reflexivity.
      * rewrite offset_bytes by lia. reflexivity.
      * rewrite offset_bytes by (unfold page_end; lia). reflexivity.
    + unfold page_end. repeat (apply Forall_cons; [lia|]). apply Forall_nil.
    + left. do 6 right. now left.
  - repeat constructor; cbn; intuition discriminate.
  - cbn [k_size page C] in P4. pose proof (largest_stop_unique _ _ _ P3 (page_largest _ _ _ _ _ _ _ _)). subst m.
    assert (E : zlen bytes = page_end) by (unfold page_end in *; lia). exists bytes, o'. split; [exact P1|]. split; [exact P2|]. split; [exact E|]. rewrite E.
    split; [exact (P5 3%nat _ _ eq_refl eq_refl)|].
    intros rest o2 Hr. destruct (P6 (BArr (bytes ++ rest)) (bits_of_bytes rest) o2) as (o'' & U1 & U2 & _).
    + apply Forall_app. auto.
    + cbn [buf_bits]. apply flat_map_app.
    + cbn [buf_bits]. rewrite bits_of_bytes_length, zlen_app, E. pose proof (zlen_nonneg rest).
      assert (W : forall a x v b u, a <= x -> x <= page_end -> exists from,
                    reads_at (mkEntry [mkR (8 * a) None] [mkR (8 * a) None] (at_bytes a x) v b u) (8 * ((8 * (page_end + zlen rest) + 7) / 8)) from
                    /\ (true = false -> from = at_bytes a x)).
      { intros a x v b u Ha Hx. eexists. split; [|discriminate]. right. exists [], (8 * a), (8 * x). repeat (split; [reflexivity|]). split; [lia|constructor]. }
      intros i x Hx. unfold page_layout in Hx.
      destruct i as [|[|[|[|[|[|[|i]]]]]]]; cbn [nth_error] in Hx; [| | | | | | |destruct i; discriminate];
        apply (f_equal (fun y => match y with Some (Some e) => e | _ => x end)) in Hx; cbv beta iota in Hx; subst x; cbn [page_wide e_place];
        try (eexists; split; [left; split; reflexivity|reflexivity]); first [apply (W 8)|apply W]; unfold page_end; lia.
    + intros x y [].
    + exists o''. split; [exact U1|]. unfold holds_layout in U2. cbn [k_fields page page_fields C] in U2.
      inversion U2 as [|? ? ? ? A0 U3]; subst. inversion U3 as [|? ? ? ? A1 U4]; subst. inversion U4 as [|? ? ? ? A2 U5]; subst. inversion U5 as [|? ? ? ? A3 U6]; subst.
      inversion U6 as [|? ? ? ? A4 U7]; subst. inversion U7 as [|? ? ? ? A5 U8]; subst. inversion U8 as [|? ? ? ? A6 _]; subst.
      split; [exact A2|]. split; [exact A4|]. split; [exact A3|]. split; [exact A1|]. split; [exact A0|]. split; [exact A5|exact A6].
Qed.
End Page.

(** ** The elements *)
Definition bit_places (ps : list (Z * Z)) : list (list srange) := map (fun p => [mkR (fst p) (Some (snd p))]) ps.
Lemma bit_places_in ps r : In r (List.concat (bit_places ps)) -> exists p, In p ps /\ r = mkR (fst p) (Some (snd p)).
Proof.
  intros H. apply in_concat in H. destruct H as (l & H1 & H2). apply in_map_iff in H1. destruct H1 as (p & <- & H1). destruct H2 as [<-|[]]. eauto.
Qed.
Lemma bit_places_apart ps : Forall (fun p => 0 <= fst p <= snd p) ps -> ForallOrdPairs (fun p q => snd p <= fst q \/ snd q <= fst p) ps -> apart (bit_places ps).
Proof.
  intros H1 H2. split; [|split].
  - apply Forall_forall. intros r Hr. apply bit_places_in in Hr. destruct Hr as (p & P1 & ->). pose proof (proj1 (Forall_forall _ _) H1 p P1) as H. cbv beta in H.
    split; [split; cbn [r_start r_stop]; lia|discriminate].
  - clear H1. unfold pairwise_disjoint. induction H2 as [|p ps H2 _ IH]; [constructor|]. cbn [bit_places map List.concat app]. constructor; [|exact IH].
    apply Forall_forall. intros r Hr. apply bit_places_in in Hr. destruct Hr as (q & Q1 & ->). pose proof (proj1 (Forall_forall _ _) H2 q Q1) as H. cbv beta in H.
    intros (x & X1 & X2). unfold in_range in *. cbn [r_start r_stop] in *. lia.
  - apply Forall_forall. intros l Hl. apply in_map_iff in Hl. destruct Hl as (p & <- & _). left. eexists. reflexivity.
Qed.
Lemma bit_places_largest ps n : (forall p, In p ps -> snd p <= n) -> (exists a, In (a, n) ps) -> 0 <= n -> largest_stop (List.concat (bit_places ps)) n.
Proof.
  intros H1 (a & H2) H3. split; [|split; [|lia]].
  - intros r x Hr Hx. apply bit_places_in in Hr. destruct Hr as (p & P1 & ->). specialize (H1 p P1). cbn [r_stop] in Hx. assert (snd p = x) by congruence. lia.
  - right. exists (mkR a (Some n)). split; [|reflexivity]. apply in_concat. exists [mkR a (Some n)]. split; [|now left]. apply in_map_iff. exists (a, n). auto.
Qed.

(** tests/test_buffer_ses.py:73-77:
      element_type = be_int_field(where=bytes_ref[0])
      possible_elements_num = be_int_field(where=bytes_ref[1])
      subenclosure_identifier = be_int_field(where=bytes_ref[2])
      type_descriptor_text_length = be_int_field(where=bytes_ref[3]) *)
Definition header_fields (h : host) : list field :=
  [int_field h BBig true None (packet_kw "element_type" 1 1 None);
   int_field h BBig true None (packet_kw "possible_elements_num" 2 2 None);
   int_field h BBig true None (packet_kw "subenclosure_identifier" 3 3 None);
   int_field h BBig true None (packet_kw "type_descriptor_text_length" 4 4 None)].
Definition header_users : list uref := [UConst (rbool true); UByteNum (num 0); UByteNum (num 1); UByteNum (num 2); UByteNum (num 3)].
Definition header (h : host) : cls := mkCls (header_fields h) header_users (Some 32).
Lemma header_made h : make_class (header_fields h) header_users = Ok (header h).
Proof. apply make_class_by. destruct h; vm_compute; reflexivity. Qed.
Definition header_obj (a b c d : Z) : attrs :=
  [("element_type", VInt a); ("possible_elements_num", VInt b); ("subenclosure_identifier", VInt c); ("type_descriptor_text_length", VInt d)].
Definition small (z : Z) : Prop := - 128 <= z < 128.
Lemma closed_entry C lay o vr qr ur i f r v b used : (forall know, given C know (f_where_pack f) (RRanges r)) -> (forall know, given C know (f_where_unpack f) (RRanges r)) ->
  (forall know, exists c, given C know (f_pack_if f) c /\ truthy c = true) -> (forall know, exists c, given C know (f_unpack_if f) c /\ truthy c = true) ->
  f_before f = None -> f_after f = None -> f_unpack_after f = [] -> f_pack_args f = [] -> f_unpack_args f = [] -> Marshal.lookup o (f_name f) = Some v ->
  codec_restores f [] [] (given_size f r) (given_size f r) (zlen (all_positions r)) v b used ->
  laid_out C lay o vr qr ur i f (mkEntry r r r v b used).
Proof.
  intros W1 W2 T1 T2 F1 F2 F3 F4 F5 Ho K. unfold laid_out. cbn [e_write e_read e_place e_value e_buf e_used]. split; [apply W1|]. split; [now left|]. split; [congruence|].
  split; [apply W2|]. split; [apply T1|]. split; [apply T2|]. split; [unfold value_to_pack; rewrite F1; exact Ho|]. split; [exact F2|]. split; [rewrite F3; constructor|].
  exists [], []. rewrite F4, F5. split; [constructor|]. split; [constructor|]. exact K.
Qed.
Lemma byte_int h know k z : small z -> exists b, codec_restores (int_field h BBig true None (packet_kw know k k None)) [] [] (Some 8) (Some 8) 8 (VInt z) b (Some 8).
Proof.
  intros Hz. destruct (stores_packed (int_field h BBig true None (packet_kw know k k None)) (Some 8) [] 8 (VInt z) 8 []) as (b & B & _); [|eauto].
  apply (st_int h BBig true None _ I8); [intros (E & _); discriminate|]. unfold int_fits, small in *. cbn [width_in_bytes]. lia.
Qed.
Lemma header_restorable h nm a b c d : small a -> small b -> small c -> small d -> exists bytes, zlen bytes = 4 /\ restorable nm (header h) (header_obj a b c d, bytes).
Proof.
  intros Ha Hb Hc Hd.
  destruct (byte_int h "element_type" 1 a Ha) as (b0 & B0). destruct (byte_int h "possible_elements_num" 2 b Hb) as (b1 & B1).
  destruct (byte_int h "subenclosure_identifier" 3 c Hc) as (b2 & B2). destruct (byte_int h "type_descriptor_text_length" 4 d Hd) as (b3 & B3).
  set (at_ := fun n v b => Some (mkEntry (at_bytes n (n + 1)) (at_bytes n (n + 1)) (at_bytes n (n + 1)) (VInt v) b (Some 8))).
  set (lay := [at_ 0 a b0; at_ 1 b b1; at_ 2 c b2; at_ 3 d b3] : layout).
  assert (T : forall know, exists c, given (header h) know (user 0) c /\ truthy c = true).
  { intros know. exists (rbool true). split; [now apply given_const|reflexivity]. }
  assert (Pl : places lay = byte_places [(0, 1); (1, 2); (2, 3); (3, 4)]) by reflexivity.
  destruct (layout_restores_prefix (header h) lay (header_obj a b c d) 32 nm) as (bytes & m & M1 & M2 & M3).
  - class_ok.
  - split; [reflexivity|]. exists (fun _ => 0%nat), (fun _ => 0%nat), (fun _ => 0%nat).
    intros [|[|[|[|i]]]] f Hf; cbn [k_fields header header_fields nth_error] in Hf; [| | | |destruct i; discriminate]; injection Hf as <-;
      (apply closed_entry; [intros know; now apply given_byte|intros know; now apply given_byte|apply T|apply T|reflexivity..|]);
      [exact B0|exact B1|exact B2|exact B3].
  - rewrite Pl. apply byte_places_apart; repeat first [apply Forall_nil|apply FOP_nil|apply FOP_cons|apply Forall_cons]; cbn [fst snd]; lia.
  - unfold layout_size. cbn [k_size header]. split; [reflexivity|]. split; [lia|]. rewrite Pl. intros r x Hr Hx. apply byte_places_in in Hr. destruct Hr as (p & R1 & ->).
    cbn [r_stop] in Hx. assert (8 * snd p = x) by congruence. cbn [In] in R1. repeat (destruct R1 as [<-|R1]; [cbn [snd] in *; lia|]). destruct R1.
  - repeat constructor; cbn; intuition discriminate.
  - reflexivity.
  - repeat constructor.
  - intros e He. cbn [In lay at_] in He. repeat (destruct He as [He|He]; [injection He as <-; reflexivity|]). destruct He.
  - assert (m = 32).
    { apply (largest_stop_unique _ _ _ M1). rewrite Pl. apply (byte_places_largest _ 4); [|eexists; do 3 right; left; reflexivity|lia].
      intros p Hp. cbn [In] in Hp. repeat (destruct Hp as [<-|Hp]; [cbn [snd]; lia|]). destruct Hp. }
    subst m. cbn [k_size header] in M2. change ((Z.max 32 32 + 7) / 8) with 4 in M2. exists bytes. split; [exact M2|].
    split; cbn [fst snd]; [rewrite M2; exact M3|]. intros ->. discriminate.
Qed.

(** tests/test_buffer_ses.py:59-70:
      enclosure_services_processes_num = be_int_field(where=bytes_ref[0].bits[0:3])
      relative_enclosure_services_process_identifier = be_int_field(where=bytes_ref[0].bits[4:7])
      subenclosure_identifier = be_int_field(where=bytes_ref[1])
      type_descriptor_headers_num = be_int_field(where=bytes_ref[2])
      enclosure_descriptor_length = be_int_field(where=bytes_ref[3])
      enclosure_logical_identifier = bytearray_field(where=bytes_ref[4:12])
      enclosure_vendor_identification = str_field(where=bytes_ref[12:20])
      product_identification = str_field(where=bytes_ref[20:36])
      product_revision_level = str_field(where=bytes_ref[36:40])
      vendor_specific_enclosure_information = bytearray_field(where_when_pack=bytes_ref[40:],
                                                              where_when_unpack=bytes_ref[40:enclosure_descriptor_length + 4]) *)
Definition str_default : keywords -> field := str_field (ABytes [32]) (ABytes [0]) JLeft.
Definition enclosure_fields (h : host) : list field :=
  [int_field h BBig true None (packet_kw "enclosure_descriptor_length" 1 1 None);
   bytearray_field (packet_kw "enclosure_logical_identifier" 2 2 None);
   int_field h BBig true None (packet_kw "enclosure_services_processes_num" 4 4 None);
   str_default (packet_kw "enclosure_vendor_identification" 5 5 None);
   str_default (packet_kw "product_identification" 6 6 None);
   str_default (packet_kw "product_revision_level" 7 7 None);
   int_field h BBig true None (packet_kw "relative_enclosure_services_process_identifier" 9 9 None);
   int_field h BBig true None (packet_kw "subenclosure_identifier" 10 10 None);
   int_field h BBig true None (packet_kw "type_descriptor_headers_num" 11 11 None);
   bytearray_field (packet_kw "vendor_specific_enclosure_information" 12 14 None)].
Definition enclosure_users : list uref :=
  [UConst (rbool true); UByteNum (num 3); UByteSlice (num 4) (num 12); UByteNum (num 0); UBitSlice (user 3) (num 0) (num 3);
   UByteSlice (num 12) (num 20); UByteSlice (num 20) (num 36); UByteSlice (num 36) (num 40); UByteNum (num 0); UBitSlice (user 8) (num 4) (num 7);
   UByteNum (num 1); UByteNum (num 2); UByteSlice (num 40) (AConst (RVal VNone));
   UNum OpAdd (ARef (mkRid KField 0)) (num 4); UByteSlice (num 40) (ARef (user 13))].
Definition enclosure (h : host) : cls := mkCls (enclosure_fields h) enclosure_users None.
Lemma enclosure_made h : make_class (enclosure_fields h) enclosure_users = Ok (enclosure h).
Proof. apply make_class_by. destruct h; vm_compute; reflexivity. Qed.

(** An object: numbers, an identifier of 8 bytes, names, and more bytes. *)
Record enclosure_data : Type := mkEnclosure {
  en_processes : Z; en_relative : Z; en_sub : Z; en_headers : Z;
  en_id : list Z; en_vendor : list Z; en_product : list Z; en_revision : list Z; en_more : list Z }.
Definition enclosure_obj (d : enclosure_data) : attrs :=
  [("enclosure_descriptor_length", VInt (36 + zlen (en_more d))); ("enclosure_logical_identifier", VBytes (en_id d));
   ("enclosure_services_processes_num", VInt (en_processes d)); ("enclosure_vendor_identification", VStr (en_vendor d));
   ("product_identification", VStr (en_product d)); ("product_revision_level", VStr (en_revision d));
   ("relative_enclosure_services_process_identifier", VInt (en_relative d)); ("subenclosure_identifier", VInt (en_sub d));
   ("type_descriptor_headers_num", VInt (en_headers d)); ("vendor_specific_enclosure_information", VBytes (en_more d))].
(** A text that str_field stores in [n] bytes. *)
Definition fits_text (n : Z) (s : list Z) : Prop := zlen s <= n /\ is_ascii s /\ no_strip JLeft [32; 0] s.
Definition enclosure_valid (d : enclosure_data) : Prop :=
  0 <= en_processes d < 8 /\ 0 <= en_relative d < 8 /\ small (en_sub d) /\ small (en_headers d)
  /\ bytes_ok (en_id d) /\ zlen (en_id d) = 8 /\ fits_text 8 (en_vendor d) /\ fits_text 16 (en_product d) /\ fits_text 4 (en_revision d)
  /\ bytes_ok (en_more d) /\ zlen (en_more d) <= 91.

Lemma given_bits C know k p a b n m : nth_error (k_users C) k = Some (UBitSlice (user p) (num a) (num b)) ->
  nth_error (k_users C) p = Some (UByteNum (num n)) -> 0 <= n ->
  bit_slice_ref (at_bytes n (n + 1)) (Some a) (Some b) = Ok m -> given C know (user k) (RRanges m).
Proof.
  intros E1 E2 Hn E3. eapply given_user; [exact E1|]. cbn [user_prog]. econstructor; [apply (given_byte _ _ p n E2 Hn)|]. cbn [some_ranges ev num].
  apply given_retr. cbn [opt_bit_count bit_count rbind]. rewrite E3. reflexivity.
Qed.
Section Enclosure.
Variables (h : host) (nm : name) (d : enclosure_data).
Hypothesis Hd : enclosure_valid d.
Let C := enclosure h.
Definition enclosure_layout (b0 b1 b2 b3 b4 b5 b6 b7 b8 b9 : buf) : layout :=
  let e := fun r v b n => Some (mkEntry r r r v b (Some n)) in
  [e (at_bytes 3 4) (VInt (36 + zlen (en_more d))) b0 8;
   e (at_bytes 4 12) (VBytes (en_id d)) b1 64;
   e [mkR 0 (Some 3)] (VInt (en_processes d)) b2 3;
   e (at_bytes 12 20) (VStr (en_vendor d)) b3 64;
   e (at_bytes 20 36) (VStr (en_product d)) b4 128;
   e (at_bytes 36 40) (VStr (en_revision d)) b5 32;
   e [mkR 4 (Some 7)] (VInt (en_relative d)) b6 3;
   e (at_bytes 1 2) (VInt (en_sub d)) b7 8;
   e (at_bytes 2 3) (VInt (en_headers d)) b8 8;
   Some (mkEntry [mkR 320 None] (at_bytes 40 (40 + zlen (en_more d))) (at_bytes 40 (40 + zlen (en_more d))) (VBytes (en_more d)) b9 (Some (8 * zlen (en_more d))))].
Lemma enclosure_places b0 b1 b2 b3 b4 b5 b6 b7 b8 b9 : places (enclosure_layout b0 b1 b2 b3 b4 b5 b6 b7 b8 b9) =
  bit_places [(24, 32); (32, 96); (0, 3); (96, 160); (160, 288); (288, 320); (4, 7); (8, 16); (16, 24); (320, 8 * (40 + zlen (en_more d)))].
Proof. reflexivity. Qed.
Lemma text_codec n k s : 0 <= n -> fits_text n s -> exists b, codec_restores (str_default k) [] [] (Some (8 * n)) (Some (8 * n)) (8 * n) (VStr s) b (Some (8 * n)).
Proof.
  intros Hn (H1 & H2 & H3). destruct (stores_packed (str_default k) (Some (8 * n)) [] (8 * n) (VStr s) (8 * n) []) as (b & B & _); [|eauto].
  apply st_str; auto. unfold is_byte. lia.
Qed.
Lemma enclosure_laid_out : exists b0 b1 b2 b3 b4 b5 b6 b7 b8 b9, class_layout C (enclosure_layout b0 b1 b2 b3 b4 b5 b6 b7 b8 b9) (enclosure_obj d).
Proof.
  destruct Hd as (D1 & D2 & D3 & D4 & D5 & D6 & D7 & D8 & D9 & D10 & D11). pose proof (zlen_nonneg (en_more d)) as Z0.
  destruct (byte_int h "enclosure_descriptor_length" 1 (36 + zlen (en_more d))) as (b0 & B0); [unfold small; lia|].
  destruct (stores_packed (bytearray_field (packet_kw "enclosure_logical_identifier" 2 2 None)) (Some 64) [] (8 * zlen (en_id d)) (VBytes (en_id d)) (8 * zlen (en_id d)) []) as (b1 & B1 & _); [now apply st_bytes|].
  destruct (stores_packed (int_field h BBig true None (packet_kw "enclosure_services_processes_num" 4 4 None)) (Some 3) [] 3 (VInt (en_processes d)) 3 []) as (b2 & B2 & _).
  { apply st_bits; [vm_compute; intuition discriminate|lia|exact D1]. }
  destruct (text_codec 8 (packet_kw "enclosure_vendor_identification" 5 5 None) _ ltac:(lia) D7) as (b3 & B3).
  destruct (text_codec 16 (packet_kw "product_identification" 6 6 None) _ ltac:(lia) D8) as (b4 & B4).
  destruct (text_codec 4 (packet_kw "product_revision_level" 7 7 None) _ ltac:(lia) D9) as (b5 & B5).
  destruct (stores_packed (int_field h BBig true None (packet_kw "relative_enclosure_services_process_identifier" 9 9 None)) (Some 3) [] 3 (VInt (en_relative d)) 3 []) as (b6 & B6 & _).
  { apply st_bits; [vm_compute; intuition discriminate|lia|exact D2]. }
  destruct (byte_int h "subenclosure_identifier" 10 (en_sub d) D3) as (b7 & B7). destruct (byte_int h "type_descriptor_headers_num" 11 (en_headers d) D4) as (b8 & B8).
  destruct (stores_packed (bytearray_field (packet_kw "vendor_specific_enclosure_information" 12 14 None)) None [] (8 * zlen (en_more d)) (VBytes (en_more d)) (8 * zlen (en_more d)) []) as (b9 & B9 & B9'); [now apply st_bytes|].
  rewrite D6 in B1. change (8 * 8) with 64 in B1.
  exists b0, b1, b2, b3, b4, b5, b6, b7, b8, b9. split; [reflexivity|].
  exists (fun _ => 0%nat), (fun i => match i with 9%nat => 1%nat | _ => 0%nat end), (fun i => match i with 9%nat => 1%nat | _ => 0%nat end).
  assert (T : forall know, exists c, given C know (user 0) c /\ truthy c = true).
  { intros know. exists (rbool true). split; [now apply given_const|reflexivity]. }
  assert (Sl : forall know k a b, nth_error enclosure_users k = Some (UByteSlice (num a) (num b)) -> 0 <= a -> a <= b -> given C know (user k) (RRanges (at_bytes a b))).
  { intros know k a b E1 E2 E3. eapply given_slice; [exact E1|reflexivity|reflexivity|]. now apply slice_bytes. }
  intros [|[|[|[|[|[|[|[|[|[|i]]]]]]]]]] f Hf; cbn [k_fields enclosure enclosure_fields nth_error C] in Hf; [| | | | | | | | | |destruct i; discriminate]; injection Hf as <-;
    cbv beta zeta delta [enclosure_layout]; cbn [nth_error].
  - apply closed_entry; [intros know; now apply (given_byte _ _ _ 3)|intros know; now apply (given_byte _ _ _ 3)|apply T|apply T|reflexivity..|exact B0].
  - apply closed_entry; [intros know; apply Sl; [reflexivity|lia|lia]|intros know; apply Sl; [reflexivity|lia|lia]|apply T|apply T|reflexivity..|exact B1].
  - apply closed_entry; [intros know; eapply given_bits; [reflexivity|reflexivity|lia|reflexivity]|intros know; eapply given_bits; [reflexivity|reflexivity|lia|reflexivity]|apply T|apply T|reflexivity..|exact B2].
  - apply closed_entry; [intros know; apply Sl; [reflexivity|lia|lia]|intros know; apply Sl; [reflexivity|lia|lia]|apply T|apply T|reflexivity..|exact B3].
  - apply closed_entry; [intros know; apply Sl; [reflexivity|lia|lia]|intros know; apply Sl; [reflexivity|lia|lia]|apply T|apply T|reflexivity..|exact B4].
  - apply closed_entry; [intros know; apply Sl; [reflexivity|lia|lia]|intros know; apply Sl; [reflexivity|lia|lia]|apply T|apply T|reflexivity..|exact B5].
  - apply closed_entry; [intros know; eapply given_bits; [reflexivity|reflexivity|lia|reflexivity]|intros know; eapply given_bits; [reflexivity|reflexivity|lia|reflexivity]|apply T|apply T|reflexivity..|exact B6].
  - apply closed_entry; [intros know; now apply (given_byte _ _ _ 1)|intros know; now apply (given_byte _ _ _ 1)|apply T|apply T|reflexivity..|exact B7].
  - apply closed_entry; [intros know; now apply (given_byte _ _ _ 2)|intros know; now apply (given_byte _ _ _ 2)|apply T|apply T|reflexivity..|exact B8].
  - unfold laid_out. cbn [e_write e_read e_place e_value e_buf e_used]. split; [eapply given_slice; [reflexivity|reflexivity|reflexivity|reflexivity]|].
    split; [right; exists [], 320; split; [reflexivity|]; split; [|constructor]; rewrite B9'; unfold at_bytes, cdiv8; cbn [app all_positions flat_map]; change (zlen []) with 0; do 3 f_equal; lia|].
    split; [intros _; lia|]. split.
    { eapply given_slice; [reflexivity|reflexivity| |].
      - eapply given_num; [reflexivity|apply given_field|reflexivity|apply num_op_add]. split; [unfold read_before; lia|]. eexists. split; reflexivity.
      - replace (40 + zlen (en_more d)) with (36 + zlen (en_more d) + 4) by lia. apply slice_bytes; lia. }
    split; [apply T|]. split; [apply T|]. split; [reflexivity|]. split; [reflexivity|]. split; [constructor|]. exists [], []. split; [constructor|]. split; [constructor|].
    unfold given_size. cbn [f_size bytearray_field build]. rewrite length_bytes, positions_bytes by lia. replace (8 * (40 + zlen (en_more d) - 40)) with (8 * zlen (en_more d)) by lia. exact B9.
Qed.
Theorem enclosure_restorable : exists bytes, zlen bytes = 40 + zlen (en_more d) /\ restorable nm C (enclosure_obj d, bytes).
Proof.
  destruct enclosure_laid_out as (b0 & b1 & b2 & b3 & b4 & b5 & b6 & b7 & b8 & b9 & K). pose proof (zlen_nonneg (en_more d)) as Z0.
  assert (Z1 : zlen (en_more d) <= 91) by apply Hd.
  destruct (layout_restores_prefix C _ (enclosure_obj d) (8 * (40 + zlen (en_more d))) nm ltac:(class_ok) K) as (bytes & m & M1 & M2 & M3).
  - rewrite enclosure_places. apply bit_places_apart; repeat first [apply Forall_nil|apply FOP_nil|apply FOP_cons|apply Forall_cons]; cbn [fst snd]; lia.
  - split; [discriminate|]. exists [32; 96; 3; 160; 288; 320; 7; 16; 24; 8 * (40 + zlen (en_more d))]. split; [|split].
    + repeat (apply Forall2_cons; [eexists; split; [reflexivity|]|]); try apply Forall2_nil; cbn [e_place]; try reflexivity. rewrite offset_bytes by lia. reflexivity.
    + repeat (apply Forall_cons; [lia|]). apply Forall_nil.
    + left. do 9 right. now left.
  - repeat constructor; cbn; intuition discriminate.
  - reflexivity.
  - repeat constructor.
  - intros e He. cbv beta zeta delta [enclosure_layout] in He. cbn [In] in He. repeat (destruct He as [He|He]; [injection He as <-; reflexivity|]). destruct He.
  - assert (m = 8 * (40 + zlen (en_more d))).
    { apply (largest_stop_unique _ _ _ M1). rewrite enclosure_places. apply bit_places_largest; [|eexists; do 9 right; left; reflexivity|lia].
      intros p Hp. cbn [In] in Hp. repeat (destruct Hp as [<-|Hp]; [cbn [snd]; lia|]). destruct Hp. }
    subst m. assert (E : zlen bytes = 40 + zlen (en_more d)) by (cbn [k_size enclosure C] in M2; lia). exists bytes. split; [exact E|].
    split; cbn [fst snd]; [rewrite E; exact M3|]. intros ->. rewrite zlen_nil in E. lia.
Qed.
End Enclosure.

(** ** The whole page *)
(** A type of elements: its header without the length of the text, and its text. *)
Record element_kind : Type := mkKind { ki_type : Z; ki_possible : Z; ki_sub : Z; ki_text : list Z }.
Definition kind_obj (x : element_kind) : attrs := header_obj (ki_type x) (ki_possible x) (ki_sub x) (zlen (ki_text x)).
Definition kind_valid (x : element_kind) : Prop :=
  small (ki_type x) /\ small (ki_possible x) /\ small (ki_sub x) /\ is_ascii (ki_text x) /\ ki_text x <> [] /\ zlen (ki_text x) < 128.
Definition ses_page (h : host) : cls := page h "EnclosureDescriptor" (enclosure h) "TypeDescriptorHeader" (header h).
Definition enclosures (ds : list enclosure_data) : value := VList (map (fun d => VObj "EnclosureDescriptor" (enclosure_obj d)) ds).
Definition headers (ks : list element_kind) : value := VList (map (fun x => VObj "TypeDescriptorHeader" (kind_obj x)) ks).
Definition ses_size (ds : list enclosure_data) (ks : list element_kind) : Z :=
  8 + fold_right Z.add 0 (map (fun d => 40 + zlen (en_more d)) ds) + 4 * zlen ks + zlen (List.concat (map ki_text ks)).
Lemma choose_bytes {A} (f : A -> attrs) (size : A -> Z) (P : attrs * list Z -> Prop) l :
  (forall x, In x l -> exists bytes, zlen bytes = size x /\ P (f x, bytes)) ->
  exists xs, map fst xs = map f l /\ Forall P xs /\ zlen (elem_bytes xs) = fold_right Z.add 0 (map size l).
Proof.
  induction l as [|x l IH]; intros H; [exists []; repeat split; constructor|]. destruct (H x (or_introl eq_refl)) as (b & B1 & B2).
  destruct IH as (xs & X1 & X2 & X3); [intros y Hy; apply H; now right|]. exists ((f x, b) :: xs). cbn [map fst fold_right]. split; [now rewrite X1|].
  split; [now constructor|]. unfold elem_bytes in *. cbn [map snd List.concat]. rewrite zlen_app. lia.
Qed.
Lemma elems_chosen nm (xs : list (attrs * list Z)) {A} (f : A -> attrs) l : map fst xs = map f l -> elems nm xs = map (fun x => VObj nm (f x)) l.
Proof.
  revert xs. induction l as [|y l IH]; intros [|[a b] xs] E; cbn [map fst] in E; try discriminate; [reflexivity|]. injection E as -> E.
  unfold elems in *. cbn [map fst]. now rewrite (IH xs E).
Qed.
Lemma pair_up {A B} (R : A -> attrs * list Z -> Prop) (f : B -> attrs) (g : B -> A) (l : list B) : (forall x b, R (g x) (f x, b)) ->
  forall xs, map fst xs = map f l -> Forall2 R (map g l) xs.
Proof.
  intros H. induction l as [|y l IH]; intros [|[a b] xs] E; cbn [map fst] in *; try discriminate; constructor.
  - injection E as -> _. apply H.
  - apply IH. now injection E.
Qed.
Theorem ses_page_roundtrip h ds ks pc gc o :
  Forall enclosure_valid ds -> Forall kind_valid ks -> ds <> [] -> zlen ds <= 128 -> fold_right Z.add 0 (map en_headers ds) = zlen ks ->
  small pc -> - 2 ^ 31 <= gc < 2 ^ 31 -> ses_size ds ks < 4 + 2 ^ 15 ->
  Marshal.lookup o "page_code" = Some (VInt pc) -> Marshal.lookup o "secondary_subenclosures_num" = Some (VInt (zlen ds - 1)) ->
  Marshal.lookup o "generation_code" = Some (VInt gc) -> Marshal.lookup o "enclosure_descriptor_list" = Some (enclosures ds) ->
  Marshal.lookup o "type_descriptor_header_list" = Some (headers ks) -> Marshal.lookup o "type_descriptor_text_list" = Some (VList (map (fun x => VStr (ki_text x)) ks)) ->
  exists bytes o', buffer_pack (ses_page h) o = (Ok bytes, o') /\ bytes_ok bytes /\ zlen bytes = ses_size ds ks
    /\ Marshal.lookup o' "page_length" = Some (VInt (zlen bytes - 4))
    /\ forall rest o2, bytes_ok rest -> exists o'', buffer_unpack (ses_page h) (BArr (bytes ++ rest)) o2 = (Ok (8 * zlen bytes), o'')
       /\ Marshal.lookup o'' "page_code" = Some (VInt pc) /\ Marshal.lookup o'' "secondary_subenclosures_num" = Some (VInt (zlen ds - 1))
       /\ Marshal.lookup o'' "page_length" = Some (VInt (zlen bytes - 4)) /\ Marshal.lookup o'' "generation_code" = Some (VInt gc)
       /\ Marshal.lookup o'' "enclosure_descriptor_list" = Some (enclosures ds) /\ Marshal.lookup o'' "type_descriptor_header_list" = Some (headers ks)
       /\ Marshal.lookup o'' "type_descriptor_text_list" = Some (VList (map (fun x => VBytes (ki_text x)) ks)).
Proof.
  intros Hds Hks Hne Hnum Hsum Hpc Hgc Hsize O1 O2 O3 O4 O5 O6.
  destruct (choose_bytes enclosure_obj (fun d => 40 + zlen (en_more d)) (restorable "EnclosureDescriptor" (enclosure h)) ds) as (xs & X1 & X2 & X3).
  { intros d Hd. apply enclosure_restorable. exact (proj1 (Forall_forall _ _) Hds d Hd). }
  destruct (choose_bytes kind_obj (fun _ => 4) (restorable "TypeDescriptorHeader" (header h)) ks) as (ys & Y1 & Y2 & Y3).
  { intros x Hx. pose proof (proj1 (Forall_forall _ _) Hks x Hx) as (K1 & K2 & K3 & _ & _ & K4). apply header_restorable; auto.
    pose proof (zlen_nonneg (ki_text x)). unfold small. lia. }
  assert (Lx : zlen xs = zlen ds) by (unfold zlen; rewrite <- (map_length fst xs), X1, map_length; reflexivity).
  assert (Ly : zlen ys = zlen ks) by (unfold zlen; rewrite <- (map_length fst ys), Y1, map_length; reflexivity).
  assert (Y4 : fold_right Z.add 0 (map (fun _ : element_kind => 4) ks) = 4 * zlen ks).
  { clear. induction ks as [|x ks IH]; [reflexivity|]. cbn [map fold_right]. rewrite IH, zlen_cons. lia. }
  assert (Ep : page_end xs ys (map ki_text ks) = ses_size ds ks) by (unfold page_end, ses_size; rewrite X3, Y3, Y4; reflexivity).
  assert (0 < zlen ds) by (destruct ds as [|y l]; [congruence|]; rewrite zlen_cons; pose proof (zlen_nonneg l); lia).
  destruct (page_roundtrip h "EnclosureDescriptor" (enclosure h) "TypeDescriptorHeader" (header h) xs ys (map en_headers ds) (map ki_text ks) pc gc (zlen ds - 1) o)
    as (bytes & o' & P1 & P2 & P3 & P4 & P5); auto.
  - apply (pair_up counts enclosure_obj); [|exact X1]. intros x b. reflexivity.
  - clear - Hks. induction Hks as [|x ks (_ & _ & _ & K1 & K2 & _) F IH]; cbn [map]; constructor; auto. now split.
  - apply (pair_up announces kind_obj); [|exact Y1]. intros x b. reflexivity.
  - lia.
  - now rewrite Hsum, Ly.
  - lia.
  - now rewrite Ep.
  - rewrite O4. unfold enclosures. now rewrite (elems_chosen _ xs enclosure_obj ds X1).
  - rewrite O5. unfold headers. now rewrite (elems_chosen _ ys kind_obj ks Y1).
  - now rewrite O6, map_map.
  - exists bytes, o'. split; [exact P1|]. split; [exact P2|]. split; [now rewrite P3|]. split; [exact P4|]. intros rest o2 Hr.
    destruct (P5 rest o2 Hr) as (o'' & U1 & U2 & U3 & U4 & U5 & U6 & U7 & U8). exists o''. split; [exact U1|]. repeat (split; [assumption|]).
    split; [rewrite U6; unfold enclosures; now rewrite (elems_chosen _ xs enclosure_obj ds X1)|].
    split; [rewrite U7; unfold headers; now rewrite (elems_chosen _ ys kind_obj ks Y1)|]. now rewrite U8, map_map.
Qed.

(** ** Fields that share bytes, unpacked from any input
      head  = bytearray_field(where=bytes_ref[0:2])
      whole = bytearray_field(where=bytes_ref[0:]) *)
Definition overlap : cls :=
  mkCls [bytearray_field (packet_kw "head" 1 1 None); bytearray_field (packet_kw "whole" 2 2 None)]
    [UConst (rbool true); UByteSlice (num 0) (num 2); UByteSlice (num 0) (AConst (RVal VNone))] None.
Definition overlap_layout (l : list Z) : layout :=
  [Some (mkEntry (at_bytes 0 2) (at_bytes 0 2) (at_bytes 0 2) (VBytes (firstn 2 l)) (BArr []) (Some 16));
   Some (mkEntry [mkR 0 None] [mkR 0 None] (at_bytes 0 (zlen l)) (VBytes l) (BArr []) (Some (8 * zlen l)))].
Lemma overlap_made : make_class (k_fields overlap) (k_users overlap) = Ok overlap.
Proof. apply make_class_by. vm_compute; reflexivity. Qed.
Lemma overlap_reads l : bytes_ok l -> 2 <= zlen l -> class_reads overlap (overlap_layout l) [] (buf_bits (BArr l)).
Proof.
  intros B L. split; [reflexivity|]. split; [constructor|]. exists (fun _ => 0%nat), (fun _ => []).
  assert (T : forall know, exists c, given overlap know (user 0) c /\ truthy c = true).
  { intros know. exists (rbool true). split; [now apply given_const|reflexivity]. }
  assert (N : 8 * ((zlen (buf_bits (BArr l)) + 7) / 8) = 8 * zlen l) by (cbn [buf_bits]; rewrite bits_of_bytes_length; lia).
  assert (F : forall k, flat_map (range_bits (buf_bits (BArr l))) (at_bytes 0 k) = bits_of_bytes (py_slice l 0 k) \/ k < 0).
  { intros k. destruct (Z.ltb_spec k 0); [now right|left]. apply (bits_at_bytes l 0 k); lia. }
  intros [|[|i]] f Hf; cbn [k_fields overlap nth_error] in Hf; [| |destruct i; discriminate]; injection Hf as <-; (split; [now left|]);
    cbn [nth_error overlap_layout]; unfold read_as; cbn [e_read e_place e_value e_used].
  - split; [constructor; eapply given_slice; [reflexivity|reflexivity|reflexivity|reflexivity]|]. split; [apply T|]. split; [reflexivity|]. split; [constructor|].
    exists [], (at_bytes 0 2). split; [constructor|]. split; [left; now split|]. intros a b' _ K V E. destruct (F 2) as [F2|]; [|lia]. rewrite F2 in E.
    change (unpack_bytearray b' = Ok (VBytes (firstn 2 l), Some 16)). assert (S : py_slice l 0 2 = firstn 2 l).
    { unfold py_slice, py_clamp. cbv zeta. cbn [Z.ltb Z.compare]. replace (Z.min 2 (zlen l)) with 2 by lia. replace (Z.min 0 (zlen l)) with 0 by lia. reflexivity. }
    rewrite S in E. rewrite (unpack_bytearray_bytes b' (firstn 2 l)).
    + do 3 f_equal. unfold zlen in *. rewrite firstn_length. lia.
    + now split.
    + rewrite <- S. apply slice_ok, B.
  - split; [constructor; eapply given_slice; [reflexivity|reflexivity|reflexivity|reflexivity]|]. split; [apply T|]. split; [reflexivity|]. split; [constructor|].
    exists [], (at_bytes 0 (zlen l)). split; [constructor|]. split.
    { right. exists [], 0, (8 * zlen l). rewrite N. split; [reflexivity|]. split; [reflexivity|]. split; [reflexivity|]. split; [lia|constructor]. }
    intros a b' _ K V E. destruct (F (zlen l)) as [F2|]; [|lia]. rewrite F2 in E. assert (S : py_slice l 0 (zlen l) = l).
    { unfold py_slice, py_clamp. cbv zeta. replace (zlen l <? 0) with false by lia. cbn [Z.ltb Z.compare]. replace (Z.min 0 (zlen l)) with 0 by lia.
      cbn [skipn Z.to_nat]. apply firstn_all2. unfold zlen. lia. }
    rewrite S in E. exact (unpack_bytearray_bytes b' l (conj K (conj V E)) B).
Qed.
Theorem overlap_unpack l o : bytes_ok l -> 2 <= zlen l ->
  exists o', buffer_unpack overlap (BArr l) o = (Ok (8 * zlen l), o')
    /\ Marshal.lookup o' "head" = Some (VBytes (firstn 2 l)) /\ Marshal.lookup o' "whole" = Some (VBytes l).
Proof.
  intros B L. destruct (layout_reads overlap (overlap_layout l) [] (8 * zlen l) (BArr l) o) as (o' & U1 & U2 & _).
  - class_ok.
  - exact B.
  - now apply overlap_reads.
  - cbn [places flat_map overlap_layout app e_place]. repeat (apply Forall_cons; [apply at_bytes_neat; lia|]). apply Forall_nil.
  - split; [discriminate|]. exists [16; 8 * zlen l]. split; [|split].
    + repeat (apply Forall2_cons; [eexists; split; [reflexivity|]|]); try apply Forall2_nil; cbn [e_place]; [reflexivity|].
      replace (8 * zlen l) with (8 * (zlen l - 0)) at 1 by lia. rewrite offset_bytes by lia. f_equal. lia.
    + repeat constructor; lia.
    + left. right. now left.
  - repeat constructor; cbn; intuition discriminate.
  - intros x y [].
  - exists o'. split; [exact U1|]. inversion U2 as [|? ? ? ? H1 U3]; subst. inversion U3 as [|? ? ? ? H2 U4]; subst. cbn in H1, H2. now split.
Qed.

(** Classes with a selector that looks at an earlier field of the object (tests/test_buffer_buffer.py:354-440),
    for all classes to choose from. *)
From Verif Require Import Base BaseProofs IntCodec CodecSpec Stream Marshal FieldSpec FieldFacts Range RangeRef RangeSpec RangeFacts RangeArith
  IoBuffer IoSpec IoProofs IoFacts IoOutput Serialize SerializeSpec SerializeFacts SerializeLists
  RefEngine RefSpec RefProofs RefStatic RefSteady BufferModel BufferSpec SeeSpec BufferPlace BufferFacts BufferPack BufferLayout BufferTrip BufferDep
  BufferMacros BufferCodecSpec BufferCodecs BufferErrors BufferClass BufferNested BufferExamples SelectModel SelectSpec SelectProofs.
From Coq Require Import ZArith List Bool String Lia ZifyBool ZifyNat.
Import ListNotations.
Open Scope string_scope.
Open Scope list_scope.
Open Scope Z_scope.
Ltac Zify.zify_post_hook ::= Z.div_mod_to_equations.

(** A number, and behind it a field that is unpacked after it and may look at it:
      kind = le_uint_field(where=bytes_ref[0:4])
      body = ...(where=bytes_ref[4:], unpack_after=kind) *)
Definition kinded_users : list uref := [UConst (rbool true); UByteSlice (num 0) (num 4); UByteSlice (num 4) (AConst (RVal VNone))].
Definition body_kw : keywords := mkKw "body" VNone (user 2) (user 2) (user 0) (user 0) None None [0%nat].
Definition kinded (h : host) (f : field) : cls :=
  mkCls [int_field h BLittle false None (packet_kw "kind" 1 1 None); f] kinded_users None.
Definition kind_is (z : Z) (a : attrs) : Prop := Marshal.lookup a "kind" = Some (VInt z).

Section Kinded.
Variables (h : host) (args : list arg) (uargs : list rv) (pk : list rv -> value -> option Z -> res buf)
  (up : list rv -> attrs -> buf -> option Z -> res (value * option Z)).
Definition body_field : field := build body_kw None [] args pk up.
Variables (z : Z) (v : value) (b : buf) (n : Z) (o : attrs).
Hypothesis Hok : cls_ok (kinded h body_field).
Hypothesis Hargs : forall know, Forall2 (given_arg (kinded h body_field) know) args uargs.
Hypothesis Hz : 0 <= z < 2 ^ 32.
Hypothesis Hn : 0 <= n.
Hypothesis Hb : blen b = n.
Hypothesis Hcodec : forall psize, codec_restores_if (kind_is z) body_field [] uargs psize (Some (8 * n)) (8 * n) v b (Some (8 * n)).
Hypothesis Ho1 : Marshal.lookup o "kind" = Some (VInt z).
Hypothesis Ho2 : Marshal.lookup o "body" = Some v.

Definition kinded_layout (b1 : buf) : layout :=
  [Some (mkEntry (at_bytes 0 4) (at_bytes 0 4) (at_bytes 0 4) (VInt z) b1 (Some 32));
   Some (mkEntry [mkR 32 None] [mkR 32 None] (at_bytes 4 (4 + n)) v b (Some (8 * n)))].
Lemma kinded_laid_out : exists b1, class_layout_seeing (kinded h body_field) (kinded_layout b1) o.
Proof.
  destruct (stores_packed (int_field h BLittle false None (packet_kw "kind" 1 1 None)) (Some 32) [] 32 (VInt z) 32 []) as (b1 & B1 & _).
  { apply (st_int h BLittle false None _ I32); [intros (E & _); discriminate|]. unfold int_fits. cbn [width_in_bytes]. lia. }
  exists b1. split; [reflexivity|]. exists (fun i => i), (fun i => match i with 0%nat => 0%nat | _ => 2%nat end), (fun i => i), (fun i => match i with 0%nat => [] | _ => [0%nat] end).
  assert (W1 : forall know, given (kinded h body_field) know (user 1) (RRanges (at_bytes 0 4))).
  { intros know. eapply given_slice; [reflexivity|reflexivity|reflexivity|]. reflexivity. }
  assert (W2 : forall know, given (kinded h body_field) know (user 2) (RRanges [mkR 32 None])).
  { intros know. eapply given_slice; [reflexivity|reflexivity|reflexivity|]. reflexivity. }
  assert (T : forall know, exists c, given (kinded h body_field) know (user 0) c /\ truthy c = true).
  { intros know. exists (rbool true). split; [now apply given_const|reflexivity]. }
  intros [|[|i]] f Hi; cbn [k_fields kinded nth_error] in Hi; [| |destruct i; discriminate]; injection Hi as <-;
    (split; [|unfold kinded_layout at 1; cbn [nth_error]; unfold laid_out_seeing; cbn [e_write e_read e_place e_value e_buf e_used]]).
  - now left.
  - split; [apply W1|]. split; [now left|]. split; [congruence|]. split; [apply W1|]. split; [apply T|]. split; [apply T|]. split; [exact Ho1|].
    split; [reflexivity|]. split; [constructor|]. exists [], []. split; [constructor|]. split; [constructor|].
    destruct B1 as (E1 & E2 & E3 & E4). split; [exact E1|]. split; [exact E2|]. split; [exact E3|]. intros a b' _. apply E4.
  - right. split; [repeat constructor|]. intros k g Hk Hg. destruct k as [|[|k]]; [| |lia]; cbn [k_fields kinded nth_error] in Hg; injection Hg as <-; cbn [kinded_layout nth_error];
      (split; [lia|]; split; [apply T|]); repeat constructor.
  - split; [apply W2|]. split; [right; exists [], 32; split; [reflexivity|]; split; [|constructor]; rewrite Hb; unfold at_bytes; cbn [app all_positions flat_map]; change (zlen []) with 0; do 3 f_equal; lia|].
    split; [intros _; lia|]. split; [apply W2|]. split; [apply T|]. split; [apply T|]. split; [exact Ho2|]. split; [reflexivity|].
    split; [constructor; [eexists; reflexivity|constructor]|]. exists [], uargs. split; [constructor|]. split; [apply Hargs|].
    replace (given_size body_field (at_bytes 4 (4 + n))) with (Some (8 * n)) by (unfold given_size; cbn [f_size body_field build]; rewrite length_bytes by lia; f_equal; lia).
    rewrite positions_bytes by lia. replace (8 * (4 + n - 4)) with (8 * n) by lia.
    destruct (Hcodec (given_size body_field [mkR 32 None])) as (E1 & E2 & E3 & E4). split; [exact E1|]. split; [exact E2|]. split; [exact E3|].
    intros a b' Ha. apply E4. apply (Ha 0%nat _ (or_introl eq_refl) eq_refl).
Qed.
Theorem kinded_roundtrip : exists bytes o', buffer_pack (kinded h body_field) o = (Ok bytes, o') /\ bytes_ok bytes /\ zlen bytes = 4 + n
    /\ forall o2, exists o'', buffer_unpack (kinded h body_field) (BArr bytes) o2 = (Ok (8 * zlen bytes), o'')
       /\ Marshal.lookup o'' "kind" = Some (VInt z) /\ Marshal.lookup o'' "body" = Some v.
Proof.
  destruct kinded_laid_out as (b1 & K).
  assert (Pl : places (kinded_layout b1) = byte_places [(0, 4); (4, 4 + n)]) by reflexivity.
  destruct (layout_roundtrip_seeing (kinded h body_field) (kinded_layout b1) o (8 * (4 + n)) Hok K) as (bytes & o' & P1 & P2 & (m & P3 & P4) & _ & P5 & P6).
  - rewrite Pl. apply byte_places_apart; repeat constructor; cbn [fst snd]; lia.
  - split; [discriminate|]. exists [32; 8 * (4 + n)]. split; [|split].
    + repeat constructor; eexists; (split; [reflexivity|]); cbn [e_place]; [reflexivity|]. rewrite offset_bytes by lia. reflexivity.
    + repeat constructor; lia.
    + left. right. now left.
  - repeat constructor; cbn; intuition discriminate.
  - cbn [k_size kinded] in P4. assert (m = 8 * (4 + n)).
    { apply (largest_stop_unique _ _ _ P3). rewrite Pl. apply byte_places_largest; [|eexists; right; left; reflexivity|lia]. intros p [<-|[<-|[]]]; cbn [snd]; lia. }
    subst m. assert (E : zlen bytes = 4 + n) by lia. exists bytes, o'. split; [exact P1|]. split; [exact P2|]. split; [exact E|].
    intros o2. destruct (P6 (BArr bytes) [] o2 P2) as (o'' & U1 & U2 & _).
    + cbn [buf_bits]. now rewrite app_nil_r.
    + intros i y Hy. unfold kinded_layout in Hy. cbn [buf_bits]. rewrite bits_of_bytes_length, E.
      destruct i as [|[|i]]; cbn [nth_error] in Hy; [| |destruct i; discriminate]; apply (f_equal (fun x => match x with Some (Some e) => e | _ => y end)) in Hy; cbv beta iota in Hy; subst y; [now left|].
      right. exists [], 32. split; [reflexivity|]. split; [|constructor]. cbn [e_place app]. unfold at_bytes. do 3 f_equal. lia.
    + exists o''. rewrite E. split; [exact U1|]. inversion U2 as [|? ? ? ? V1 U3]; subst. inversion U3 as [|? ? ? ? V2 _]; subst. split; [exact V1|exact V2].
Qed.
End Kinded.

(** class Message(Buffer):
        kind = le_uint_field(where=bytes_ref[0:4])
        body = buffer_field(Buffer, where=bytes_ref[4:], unpack_after=kind,
                            unpack_selector=lambda self, buffer, **kwargs: choose(self.kind)) *)
Definition by_kind (choose : Z -> res selection) : selector := fun a _ _ =>
  match Marshal.lookup a "kind" with Some (VInt z) => choose z | Some _ => Err KeyError | None => Err AttributeError end.
Definition message (h : host) (tbl : classes) (choose : Z -> res selection) : cls :=
  kinded h (selector_field tbl (by_kind choose) None body_kw).
Lemma message_made h tbl choose : make_class (k_fields (message h tbl choose)) (k_users (message h tbl choose)) = Ok (message h tbl choose).
Proof. apply make_class_by. destruct h; vm_compute; reflexivity. Qed.
Theorem message_roundtrip h tbl choose z nm C a bytes o : 0 <= z < 2 ^ 32 -> tbl nm = Some C -> choose z = Ok (SelType nm C) ->
  restores_exact nm C a bytes (8 * zlen bytes) -> Marshal.lookup o "kind" = Some (VInt z) -> Marshal.lookup o "body" = Some (VObj nm a) ->
  exists packed o', buffer_pack (message h tbl choose) o = (Ok packed, o') /\ bytes_ok packed /\ zlen packed = 4 + zlen bytes
    /\ forall o2, exists o'', buffer_unpack (message h tbl choose) (BArr packed) o2 = (Ok (8 * zlen packed), o'')
       /\ Marshal.lookup o'' "kind" = Some (VInt z) /\ Marshal.lookup o'' "body" = Some (VObj nm a).
Proof.
  intros Hz Ht Hc R Ho1 Ho2. apply (kinded_roundtrip h [] [] (fun _ v _ => pack_object tbl v) (fun _ a b n => let* s := by_kind choose a b n in selected s b)
    z (VObj nm a) (BArr bytes) (zlen bytes) o); auto.
  - class_ok.
  - apply zlen_nonneg.
  - intros psize. apply (selector_restores tbl (by_kind choose) (kind_is z) None body_kw psize nm C a bytes (8 * zlen bytes) Ht R).
    intros a0 b n Ha _. unfold by_kind. rewrite Ha. exact Hc.
Qed.

(** class Records(Buffer):
        kind = le_uint_field(where=bytes_ref[0:4])
        body = list_field(Buffer, where=bytes_ref[4:], unpack_after=kind,
                          unpack_selector=lambda self, buffer, container, index, **kwargs: choose(self.kind, container, index)) *)
Definition by_kind_each (choose : Z -> list value -> Z -> res selection) : list_selector := fun a before i _ _ _ =>
  match Marshal.lookup a "kind" with Some (VInt z) => choose z before i | Some _ => Err KeyError | None => Err AttributeError end.
Definition records (h : host) (tbl : classes) (choose : Z -> list value -> Z -> res selection) : cls :=
  kinded h (selector_list tbl (AConst (RVal VNone)) (by_kind_each choose) body_kw).
Lemma records_made h tbl choose : make_class (k_fields (records h tbl choose)) (k_users (records h tbl choose)) = Ok (records h tbl choose).
Proof. apply make_class_by. destruct h; vm_compute; reflexivity. Qed.
Theorem records_roundtrip h tbl choose z l bs o : 0 <= z < 2 ^ 32 -> mixed tbl (by_kind_each choose) (kind_is z) None [] l bs ->
  Marshal.lookup o "kind" = Some (VInt z) -> Marshal.lookup o "body" = Some (VList l) ->
  exists packed o', buffer_pack (records h tbl choose) o = (Ok packed, o') /\ bytes_ok packed /\ zlen packed = 4 + zlen (List.concat bs)
    /\ forall o2, exists o'', buffer_unpack (records h tbl choose) (BArr packed) o2 = (Ok (8 * zlen packed), o'')
       /\ Marshal.lookup o'' "kind" = Some (VInt z) /\ Marshal.lookup o'' "body" = Some (VList l).
Proof.
  intros Hz M Ho1 Ho2.
  destruct (selector_list_restores tbl (AConst (RVal VNone)) (by_kind_each choose) (kind_is z) None body_kw None l bs M (or_introl eq_refl)) as (b & B1 & _ & B3).
  apply (kinded_roundtrip h [AConst (RVal VNone)] [RVal VNone] (fun _ v _ => pack_list (pack_object tbl) v)
    (fun args a b size => let* c := count_of args in select_list (by_kind_each choose) a c size b) z (VList l) b (zlen (List.concat bs)) o); auto.
  - class_ok.
  - intros know. constructor; [reflexivity|constructor].
  - apply zlen_nonneg.
Qed.

(** ** A concrete case: points, and pairs of a byte and a word. *)
(** class Pair(Buffer):
        a = le_uint_field(where=bytes_ref[0:1])
        b = le_uint_field(where=bytes_ref[1:3]) *)
Definition pair_fields (h : host) : list field :=
  [int_field h BLittle false None (packet_kw "a" 1 1 None); int_field h BLittle false None (packet_kw "b" 2 2 None)].
Definition pair_users : list uref := [UConst (rbool true); UByteSlice (num 0) (num 1); UByteSlice (num 1) (num 3)].
Definition pair_class (h : host) : cls := mkCls (pair_fields h) pair_users (Some 24).
Definition two_classes (h : host) : classes := fun nm =>
  if String.eqb nm "Point" then Some (point h) else if String.eqb nm "Pair" then Some (pair_class h) else None.
(** Kind 0: points; kind 1: a pair first, then points, then nothing. *)
Definition choose_two (h : host) (z : Z) (before : list value) (i : Z) : res selection :=
  if z =? 0 then Ok (SelType "Point" (point h))
  else if z =? 1 then (if i =? 0 then Ok (SelType "Pair" (pair_class h)) else Ok (SelType "Point" (point h)))
  else Ok SelNone.

(** Lemmas for C81. *)
From Verif Require Import Base BaseProofs IntCodec CodecSpec Stream StreamSpec StreamProofs Marshal FieldSpec Range RangeSpec IoBuffer IoSpec Serialize SerializeSpec
  RefEngine RefSpec BufferModel BufferSpec BufferMacros BufferReadSpec BufferReads BufferPack BufferCodecSpec BufferClass BufferNested Compat.
From Coq Require Import ZArith List Bool String Lia ZifyBool ZifyNat.
Import ListNotations.
Open Scope list_scope.
Open Scope Z_scope.
Ltac Zify.zify_post_hook ::= Z.div_mod_to_equations.

Lemma init_empty C : exists o, buffer_init C [] = Ok o.
Proof. unfold buffer_init. cbn [init_kwargs rbind]. eauto. Qed.

Lemma read_whole C n s : k_size C = Some n -> stream_ok s -> 0 <= n / 8 <= maxsize ->
  ad_create_from_stream (mkAdapter C false) s
  = (ad_create_from_string (mkAdapter C false) (PyBytes (firstn (Z.to_nat (n / 8)) (rest s))),
     consume (Nat.min (Z.to_nat (n / 8)) (List.length (rest s))) s).
Proof.
  intros E Hs Hn. unfold ad_create_from_stream. cbn [ad_cls]. rewrite E. unfold sbind, ad_read. cbn [ad_float].
  rewrite sread_ok by auto. reflexivity.
Qed.

Lemma adapter_roundtrip fl ul C lay o out :
  cls_ok (mkCls fl ul None) -> make_class fl ul = Ok C ->
  Forall2 (fun f x => slot C f (fst x) (snd x)) fl lay -> apart (map fst lay) ->
  NoDup (map f_name fl) -> has_values o fl lay ->
  exists bytes o', ad_write_to_stream (mkAdapter C false) (o, out) = (Ok tt, (o', out ++ bytes))
    /\ (exists o1, ad_create_from_string (mkAdapter C false) (PyBytes bytes) = Ok o1 /\ has_values o1 fl lay)
    /\ forall s t, stream_ok s -> rest s = bytes ++ t -> zlen bytes <= maxsize -> (forall n, k_size C = Some n -> n mod 8 = 0) ->
       exists o2, ad_create_from_stream (mkAdapter C false) s = (Ok o2, consume (List.length bytes) s) /\ has_values o2 fl lay.
Proof.
  intros H1 H2 H3 H4 H5 H6. destruct (fixed_roundtrip fl ul C lay o H1 H2 H3 H4 H5 H6) as (n & N & _ & bytes & o' & P & B & L & _ & U).
  assert (S : exists o1, ad_create_from_string (mkAdapter C false) (PyBytes bytes) = Ok o1 /\ has_values o1 fl lay).
  { cbn [ad_create_from_string]. unfold new_unpacked. cbn [ad_cls]. destruct (init_empty C) as (o0 & I). rewrite I. cbn [rbind].
    destruct (U (BArr bytes) [] o0 B) as (o'' & U1 & U2 & _); [now rewrite app_nil_r|]. rewrite U1. eauto. }
  exists bytes, o'. split; [|split; [exact S|]].
  - unfold ad_write_to_stream. cbn [ad_cls fst snd]. now rewrite P.
  - intros s t Hs R M W. specialize (W n N). assert (E : n / 8 = zlen bytes) by lia.
    destruct S as (o1 & S1 & S2). exists o1. split; [|exact S2].
    rewrite (read_whole C n s N Hs) by (rewrite E; unfold zlen in *; lia). rewrite E, R. unfold zlen.
    rewrite Nat2Z.id, firstn_app, firstn_all, Nat.sub_diag, firstn_O, app_nil_r, app_length, S1.
    f_equal. f_equal. lia.
Qed.

Lemma read_short C n s : k_size C = Some n -> stream_ok s -> 0 <= n / 8 <= maxsize -> zlen (rest s) <= n / 8 ->
  ad_create_from_stream (mkAdapter C false) s
  = (ad_create_from_string (mkAdapter C false) (PyBytes (rest s)), consume (List.length (rest s)) s).
Proof.
  intros E Hs Hn L. rewrite (read_whole C n s E Hs Hn). unfold zlen in L. rewrite firstn_all2 by lia. f_equal. f_equal. lia.
Qed.

Lemma static_places_all C i f pos : static_places C (numbered C) pos -> nth_error (k_fields C) i = Some f ->
  (forall v, ~ static (nodes C) (mkRid KPackPos i) v) -> False.
Proof.
  unfold static_places, numbered. intros H N Hs.
  assert (G : forall (l : list field) k i f pos, Forall2 (fun p r => static (nodes C) (mkRid KPackPos (fst p)) (RRanges r) /\ exists v, static (nodes C) (mkRid KUnpackPos (fst p)) v)
     (combine (seq k (List.length l)) l) pos ->
     nth_error l i = Some f -> exists v, static (nodes C) (mkRid KPackPos (k + i)) v).
  { clear. induction l as [|x l IH]; intros k i f pos H N; [destruct i; discriminate|].
    cbn [List.length seq combine] in H. inversion H as [|? ? ? ? H1 H2]; subst. destruct i as [|i].
    - exists (RRanges y). rewrite Nat.add_0_r. exact (proj1 H1).
    - destruct (IH (S k) i f _ H2 N) as (v & V). exists v. now rewrite <- plus_n_Sm. }
  destruct (G _ _ _ _ _ H N) as (v & V). exact (Hs v V).
Qed.

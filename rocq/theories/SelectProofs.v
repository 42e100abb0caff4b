(** Proofs about fields with an unpack_selector. *)
From Verif Require Import Base BaseProofs IntCodec CodecSpec Stream Marshal FieldFacts Range RangeSpec RangeFacts IoBuffer IoSpec IoProofs IoFacts Serialize SerializeSpec
  SerializeFacts SerializeLists RefEngine RefSpec BufferModel BufferSpec SeeSpec BufferMacros BufferCodecSpec BufferCodecs SelectModel SelectSpec.
From Coq Require Import ZArith List Bool String Lia ZifyBool ZifyNat.
Import ListNotations.
Open Scope list_scope.
Open Scope Z_scope.
Ltac Zify.zify_post_hook ::= Z.div_mod_to_equations.

Lemma restores_bits_if (ok : attrs -> Prop) f pargs uargs psize w v b bits used : f_pack f pargs v psize = Ok b -> buf_ok b -> buf_bits b = bits -> zlen bits = w ->
  (forall a b', ok a -> view_with b' bits -> f_unpack f uargs a b' (Some w) = Ok (v, used)) ->
  codec_restores_if ok f pargs uargs psize (Some w) w v b used.
Proof.
  intros P K E L U. split; [exact P|]. split; [exact K|]. rewrite E, zlen_pad, L. split; [unfold cdiv8; lia|].
  intros a b' Ha K' V' E'. apply U; [exact Ha|]. split; [exact K'|]. split; [exact V'|]. rewrite E', <- L. now apply firstn_pad.
Qed.

(** ** One object *)
Theorem selector_restores tbl sel ok byte_size k psize nm C a bytes n : tbl nm = Some C -> restores_exact nm C a bytes n ->
  selects sel ok bytes nm C ->
  codec_restores_if ok (selector_field tbl sel byte_size k) [] [] psize (Some (8 * zlen bytes)) (8 * zlen bytes) (VObj nm a) (BArr bytes) (Some n).
Proof.
  intros Ht ((R1 & R2) & R3) Hs. apply (restores_bits_if ok _ _ _ _ _ _ _ (bits_of_bytes bytes)); [|exact R1|reflexivity|apply bits_of_bytes_length|].
  - cbn [selector_field f_pack build pack_object]. rewrite Ht, R2. reflexivity.
  - intros a0 b' Ha V'. cbn [selector_field f_unpack build]. rewrite (Hs a0 b' _ Ha V'). cbn [rbind selected]. now apply R3.
Qed.

(** ** Lists *)
Lemma mixed_packs tbl sel ok n before l bs : mixed tbl sel ok n before l bs -> Forall2 (packs_as (pack_object tbl)) l (map bits_of_bytes bs)
  /\ Forall (fun x => 0 < zlen x) (map bits_of_bytes bs).
Proof.
  induction 1 as [before|before nm C a bytes l bs Ht ((R1 & R2) & R3) Hb Hs _ (IH1 & IH2)]; [split; constructor|]. cbn [map]. split; constructor; auto.
  - exists (BArr bytes). cbn [pack_object]. rewrite Ht, R2. auto.
  - rewrite bits_of_bytes_length. destruct bytes; [congruence|]. rewrite zlen_cons. pose proof (zlen_nonneg bytes). lia.
Qed.
Lemma select_loop_reads f b last : buf_ok b -> is_view b -> (match last with Some w => blength b <= w | None => True end) ->
  forall l bits rest pre n fuel before,
  (forall k v x, nth_error l k = Some v -> nth_error bits k = Some x ->
     forall s rest', view_with s (x ++ rest') -> f (before ++ firstn k l) (zlen before + Z.of_nat k) s = Ok (v, Some (zlen x))) ->
  List.length l = List.length bits -> Forall (fun x => 0 < zlen x) bits ->
  buf_bits b = pre ++ concat_bits bits ++ rest ->
  (match n with Some k => k = zlen before + zlen l | None => rest = [] end) ->
  (List.length l <= fuel)%nat ->
  select_loop f b n last fuel (zlen pre) (zlen before) before = Some (Ok (before ++ l, zlen pre + zlen (concat_bits bits))).
Proof.
  intros K V Hw l. induction l as [|v l IH]; intros [|b1 bs] rest pre n fuel before F Hlen P E Hn Hf; try discriminate.
  - assert (G : (zlen pre <? blength b) && match n with None => true | Some k => zlen before <? k end = false).
    { destruct n as [k|].
      - rewrite zlen_nil in Hn. replace (zlen before <? k) with false by lia. apply andb_false_r.
      - rewrite <- buf_bits_len, E by auto. subst rest. cbn [concat_bits List.concat]. rewrite !zlen_app, zlen_nil.
        now replace (zlen pre <? zlen pre + (0 + 0)) with false by lia. }
    destruct fuel; cbn [select_loop]; rewrite G; cbn [concat_bits List.concat]; rewrite app_nil_r, zlen_nil, Z.add_0_r; reflexivity.
  - inversion P as [|? ? P1 P2]; subst. destruct fuel as [|fuel]; cbn [List.length] in Hf; [lia|]. cbn [select_loop].
    cbn [concat_bits List.concat] in E |- *. fold (concat_bits bs) in E |- *. rewrite <- app_assoc in E.
    assert (G : (zlen pre <? blength b) && match n with None => true | Some k => zlen before <? k end = true).
    { apply andb_true_intro. split.
      - rewrite <- buf_bits_len, E, !zlen_app by auto. pose proof (zlen_nonneg (concat_bits bs)). pose proof (zlen_nonneg rest). lia.
      - destruct n as [k|]; auto. rewrite zlen_cons in Hn. pose proof (zlen_nonneg l). lia. }
    rewrite G. destruct (slice_from b (zlen pre) last K V (zlen_nonneg _) Hw) as (s & S1 & S2). rewrite S1. cbn [rbind].
    rewrite E in S2. replace (Z.to_nat (zlen pre)) with (List.length pre) in S2 by (unfold zlen; lia).
    rewrite skipn_app, skipn_all, Nat.sub_diag, skipn_O in S2. cbn [List.app] in S2.
    pose proof (F 0%nat v b1 eq_refl eq_refl s _ S2) as U. cbn [firstn] in U. rewrite app_nil_r, Z.add_0_r in U. rewrite U.
    rewrite <- zlen_app. replace (zlen before + 1) with (zlen (before ++ [v])) by (rewrite zlen_app, zlen_cons, zlen_nil; lia).
    rewrite (IH bs rest (pre ++ b1) n fuel (before ++ [v])); auto.
    + do 3 f_equal; [now rewrite <- app_assoc|]. rewrite !zlen_app. lia.
    + intros k x y Hx Hy s' rest' Hs. pose proof (F (S k) x y Hx Hy s' rest' Hs) as U2. cbn [firstn] in U2. rewrite <- app_assoc. cbn [app].
      replace (zlen (before ++ [v]) + Z.of_nat k) with (zlen before + Z.of_nat (S k)) by (rewrite zlen_app, zlen_cons, zlen_nil; lia). exact U2.
    + rewrite E, <- app_assoc. reflexivity.
    + destruct n; auto. rewrite zlen_cons in Hn. rewrite zlen_app, zlen_cons, zlen_nil. lia.
    + lia.
Qed.
Lemma mixed_reads tbl sel (ok : attrs -> Prop) n before l bs a size : ok a -> mixed tbl sel ok n before l bs ->
  forall k v x, nth_error l k = Some v -> nth_error (map bits_of_bytes bs) k = Some x ->
  forall s rest, view_with s (x ++ rest) ->
  (let* y := sel a (before ++ firstn k l) (zlen before + Z.of_nat k) n s size in selected y s) = Ok (v, Some (zlen x)).
Proof.
  intros Ha H. induction H as [before|before nm C o bytes l bs Ht (_ & R3) Hb Hs _ IH]; intros k v x Hv Hx s rest Hr; [destruct k; discriminate|].
  destruct k as [|k]; cbn [nth_error map firstn] in *.
  - injection Hv as <-. injection Hx as <-. rewrite app_nil_r, Z.add_0_r. rewrite (Hs a s rest size Ha Hr). cbn [rbind selected].
    rewrite bits_of_bytes_length. eapply R3; eauto.
  - specialize (IH k v x Hv Hx s rest Hr). rewrite <- app_assoc in IH. cbn [app] in IH.
    replace (zlen before + Z.of_nat (S k)) with (zlen (before ++ [VObj nm o]) + Z.of_nat k); [exact IH|]. rewrite zlen_app, zlen_cons, zlen_nil. lia.
Qed.
Lemma concat_map_bits bs : concat_bits (map bits_of_bytes bs) = bits_of_bytes (List.concat bs).
Proof.
  unfold concat_bits. induction bs as [|x bs IH]; [reflexivity|]. cbn [map List.concat]. rewrite IH. unfold bits_of_bytes. now rewrite flat_map_app.
Qed.
Lemma mixed_length tbl sel ok n before l bs : mixed tbl sel ok n before l bs -> List.length l = List.length bs.
Proof. induction 1; cbn [List.length]; congruence. Qed.

Theorem selector_list_restores tbl count sel ok n k psize l bs : mixed tbl sel ok n [] l bs -> n = None \/ n = Some (zlen l) ->
  exists b, blen b = zlen (List.concat bs) /\ buf_bits b = bits_of_bytes (List.concat bs)
    /\ codec_restores_if ok (selector_list tbl count sel k) [] [RVal (match n with None => VNone | Some x => VInt x end)] psize
         (Some (8 * zlen (List.concat bs))) (8 * zlen (List.concat bs)) (VList l) b (Some (8 * zlen (List.concat bs))).
Proof.
  intros M Hn. destruct (mixed_packs _ _ _ _ _ _ _ M) as (M1 & M2). destruct (pack_list_spec _ _ _ M1) as (b & P & K & _ & Eb).
  rewrite concat_map_bits in Eb. exists b. assert (L : zlen (bits_of_bytes (List.concat bs)) = 8 * zlen (List.concat bs)) by apply bits_of_bytes_length.
  split; [rewrite blen_cdiv, <- buf_bits_len, Eb, L by exact K; unfold cdiv8; lia|]. split; [exact Eb|].
  apply (restores_bits_if ok _ _ _ _ _ _ _ (bits_of_bytes (List.concat bs))); [exact P|exact K|exact Eb|exact L|].
  intros a b' Ha V'. cbn [selector_list f_unpack build].
  assert (C1 : count_of [RVal (match n with None => VNone | Some x => VInt x end)] = Ok n) by (destruct n; reflexivity).
  rewrite C1. cbn [rbind]. unfold select_list, select_list_n. pose proof (zlen_nonneg (List.concat bs)).
  rewrite fractional_ok by lia. destruct V' as (K' & V2 & E').
  assert (Hb : blength b' = 8 * zlen (List.concat bs)) by (rewrite <- buf_bits_len, E' by exact K'; exact L).
  pose proof (select_loop_reads (fun acc i b => let* s := sel a acc i n b (Some (8 * zlen (List.concat bs))) in selected s b) b' (Some (8 * zlen (List.concat bs)))
                K' V2 (Z.eq_le_incl _ _ Hb) l (map bits_of_bytes bs) [] [] n (list_fuel n b') []) as G.
  change (zlen (@nil bool)) with 0 in G. change (zlen (@nil value)) with 0 in G. rewrite G.
  - rewrite concat_map_bits, L. reflexivity.
  - intros i v x Hv Hx s rest Hr. apply (mixed_reads tbl sel ok n [] l bs a _ Ha M i v x Hv Hx s rest Hr).
  - rewrite map_length. eapply mixed_length; eauto.
  - exact M2.
  - rewrite concat_map_bits, app_nil_r. exact E'.
  - destruct Hn as [->| ->]; [reflexivity|lia].
  - unfold list_fuel. destruct Hn as [->| ->]; [|unfold zlen; lia]. rewrite Hb, <- L, <- concat_map_bits.
    pose proof (concat_len _ M2) as X. unfold zlen in X at 1. rewrite map_length, <- (mixed_length _ _ _ _ _ _ _ M) in X. lia.
Qed.

(** Whatever the selector does. *)
Lemma select_loop_picked f b n last fuel : forall offset acc l off, select_loop f b n last fuel offset (zlen acc) acc = Some (Ok (l, off)) ->
  exists new, l = acc ++ new /\ picked f b last acc offset new off
    /\ (blength b <= off \/ exists k, n = Some k /\ k <= zlen l) /\ (forall k, n = Some k -> zlen l <= Z.max (zlen acc) k).
Proof.
  induction fuel as [|fuel IH]; intros offset acc l off H; cbn [select_loop] in H;
    destruct ((offset <? blength b) && match n with None => true | Some k => zlen acc <? k end) eqn:G; try discriminate.
  1,3: injection H as <- <-; exists []; rewrite app_nil_r; split; [reflexivity|]; split; [constructor|];
    apply andb_false_iff in G; split; [destruct G as [G|G]; [left; lia|destruct n as [k|]; [right; exists k; split; [reflexivity|lia]|discriminate]]|intros k _; lia].
  destruct (let* s := buf_slice b (Some offset) last in f acc (zlen acc) s) as [[item [len|]]|e] eqn:E; try discriminate.
  destruct (buf_slice b (Some offset) last) as [s|e] eqn:E1; [|discriminate]. cbn [rbind] in E.
  replace (zlen acc + 1) with (zlen (acc ++ [item])) in H by (rewrite zlen_app, zlen_cons, zlen_nil; lia).
  destruct (IH _ _ _ _ H) as (new & -> & N1 & N2 & N3). exists (item :: new). rewrite <- app_assoc in *. cbn [app] in *. split; [reflexivity|].
  split; [econstructor; eauto|]. split; [exact N2|]. intros k Hk. specialize (N3 k Hk). rewrite Hk in G. apply andb_prop in G. destruct G as (_ & G).
  assert (X : zlen (acc ++ [item]) = zlen acc + 1) by (rewrite zlen_app, zlen_cons, zlen_nil; lia). lia.
Qed.
Lemma select_loop_stuck f b last : (forall acc i s, f acc i s = Ok (VNone, Some 0)) -> forall fuel offset i acc s,
  buf_slice b (Some offset) last = Ok s -> offset < blength b -> select_loop f b None last fuel offset i acc = None.
Proof.
  intros Hf fuel. induction fuel as [|fuel IH]; intros offset i acc s Hs Ho; cbn [select_loop]; replace (offset <? blength b) with true by lia; cbn [andb]; [reflexivity|].
  rewrite Hs. cbn [rbind]. rewrite Hf. rewrite Z.add_0_r. eapply IH; eauto.
Qed.
Lemma select_loop_simple f b n last fuel : forall offset i acc, select_loop (fun _ => f) b n last fuel offset i acc = unpack_loop f b n last fuel offset i acc.
Proof.
  induction fuel as [|fuel IH]; intros offset i acc; cbn [select_loop unpack_loop]; [reflexivity|].
  destruct ((offset <? blength b) && match n with None => true | Some k => i <? k end); [|reflexivity].
  destruct (let* s := buf_slice b (Some offset) last in f i s) as [[item [len|]]|e]; auto.
Qed.

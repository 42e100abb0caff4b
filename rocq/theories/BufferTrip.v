(** Proofs: unpacking what was packed. *)
From Verif Require Import Base BaseProofs Marshal FieldFacts Range RangeRef RangeSpec RangeFacts RangeArith IoBuffer IoSpec IoProofs IoFacts IoOutput
  RefEngine RefSpec RefProofs RefStatic RefSteady BufferModel BufferSpec BufferPlace BufferFacts BufferPack BufferLayout.
From Coq Require Import ZArith List Bool String Lia ZifyBool ZifyNat.
Import ListNotations.
Open Scope list_scope.
Open Scope Z_scope.
Ltac Zify.zify_post_hook ::= Z.div_mod_to_equations.

(** ** The input *)
Lemma input_get_view b l : buf_ok b -> is_view b -> Forall closed_range l ->
  exists r, input_get b l = Ok r /\ buf_ok r /\ is_view r /\ buf_bits r = flat_map (range_bits (buf_bits b)) l.
Proof.
  intros K V Hl. destruct (input_get_spec b l K V Hl) as (r & E & Kr & Br).
  exists r. split; [auto|]. split; [auto|]. split; [|auto].
  unfold input_get in E. destruct l as [|x [|y l']].
  1,3: match type of E with rbind ?m _ = _ => destruct m; inversion E; exact Logic.I end.
  inversion Hl as [|? ? Hr _]; subst. destruct (closed_bounds_ok x Hr) as (e & E1 & E2 & E3). rewrite E1 in E. cbn [rbind fst snd] in E.
  destruct (proj1 (buf_slice_spec b (Some (r_start x)) (Some e) K V) (closed_in_order _ _ _ E3)) as (s & S1 & S2 & S3 & S4).
  rewrite S1 in E. inversion E; subst. exact S3.
Qed.

Lemma input_buffer_spec b : buf_ok b -> exists v, input_buffer b = Ok v /\ buf_ok v /\ is_view v
  /\ exists pad, buf_bits v = buf_bits b ++ pad.
Proof.
  intros K. destruct b as [l|inner s e]; cbn [input_buffer].
  - destruct (view_of_spec (BArr l) K) as (v & V1 & V2 & V3 & V4). exists v. split; [auto|]. split; [auto|]. split; [auto|].
    rewrite V4. unfold pad_to_byte. eauto.
  - eexists. split; [reflexivity|]. split; [exact K|]. split; [exact Logic.I|]. exists []. now rewrite app_nil_r.
Qed.

Lemma bits_of_bytes_of_bits l : bits_of_bytes (bytes_of_bits l) = pad_to_byte l.
Proof.
  destruct (bytes_of_bits_spec l) as (_ & S2 & S3). apply bnth_ext.
  - rewrite bits_of_bytes_length, S2, zlen_pad. reflexivity.
  - intros i Hi. rewrite bnth_bytes, S3, bnth_pad. reflexivity.
Qed.

Lemma sized_prefix n bits : exists gap, bits_of_bytes (sized n (bytes_of_bits bits)) = bits ++ gap.
Proof.
  assert (P : exists gap, pad_to_byte bits = bits ++ gap) by (unfold pad_to_byte; eauto). destruct P as (g & P).
  unfold sized. destruct n as [n|]; [destruct (n =? 0)|].
  1,3: rewrite bits_of_bytes_of_bits, P; eauto.
  unfold bits_of_bytes. rewrite flat_map_app. fold (bits_of_bytes (bytes_of_bits bits)). rewrite bits_of_bytes_of_bits, P, <- app_assoc. eauto.
Qed.

(** ** Unpacking with steady references *)
Lemma st_total_sized C (I : bst -> Prop) (Post : rid -> bst -> Prop) no n : k_size C = Some n -> (forall s, Post (mkRid KTotal no) s) ->
  st C I Post (mkRid KTotal no) (rnum n).
Proof.
  intros H P. apply st_intro. cbn [nodes r_kind]. unfold total_prog. rewrite H. cbn [rsize].
  apply stp_read with (v := rnum n); [reflexivity|]. unfold rnum. destruct (n mod 8 =? 0); apply stp_ret; auto.
Qed.

Lemma num_bits_rnum n : num_bits (rnum n) = Ok n.
Proof. unfold rnum. destruct (n mod 8 =? 0) eqn:E; cbn [num_bits]; [f_equal; lia|reflexivity]. Qed.
Lemma opt_num_bits_rsize n : opt_num_bits (rsize n) = Ok n.
Proof.
  destruct n as [n|]; [|reflexivity]. cbn [rsize]. unfold opt_num_bits. pose proof (num_bits_rnum n) as H.
  unfold rnum in *. destruct (n mod 8 =? 0); rewrite H; reflexivity.
Qed.

(** What unpacking one field needs. *)
Definition field_unpacks (C : cls) (I : bst -> Prop) (Post : rid -> bst -> Prop) (i : nat) (f : field) : Prop :=
  exists c, st C I Post (f_unpack_if f) c /\
  if truthy c
  then Forall (fun j => exists v, st C I Post (mkRid KUnpackValue j) v) (f_unpack_after f)
       /\ exists v, st C I Post (mkRid KUnpackValue i) v
  else forall s, I s -> let s' := mkBst (set_attr (s_obj s) (f_name f) VNone) (s_input s) in
       I s' /\ Post (mkRid KUnpackValue i) s' /\ forall r, Post r s -> Post r s'.

Lemma unpack_after_steady C I Post l : forall w, cls_ok C -> Forall (field_no C) l ->
  Forall (fun j => exists v, st C I Post (mkRid KUnpackValue j) v) l -> steady_world C I Post w ->
  exists w', sforeach l (fun j => do dref C (mkRid KUnpackValue j) ;; sret tt) w = (Ok tt, w') /\ steady_world C I Post w'
    /\ w_out w' = w_out w /\ forall r, Post r (w_st w) -> Post r (w_st w').
Proof.
  induction l as [|j l IH]; intros w Hok Hn Hs W; cbn [sforeach].
  - exists w. split; [reflexivity|]. auto.
  - inversion Hn as [|? ? N1 N2]; inversion Hs as [|? ? (v & S1) S2]; subst.
    destruct (dref_steady C I Post _ v w Hok (in_field C KUnpackValue j eq_refl N1) S1 W) as (w1 & D1 & W1 & O1 & _ & M1).
    destruct (IH w1 Hok N2 S2 W1) as (w' & E & W' & O' & M').
    exists w'. split; [|split; [exact W'|split; [congruence|auto]]].
    unfold sbind at 1. unfold sbind at 1. rewrite D1. unfold sret at 1. exact E.
Qed.

Lemma unpack_fields_steady C I Post l : forall w, cls_ok C -> incl l (numbered C) ->
  (forall i f, In (i, f) l -> field_unpacks C I Post i f) -> steady_world C I Post w ->
  exists w', sforeach l (fun p => unpack_field C (fst p) (snd p)) w = (Ok tt, w') /\ steady_world C I Post w'
    /\ (forall r, Post r (w_st w) -> Post r (w_st w'))
    /\ (forall i f, In (i, f) l -> Post (mkRid KUnpackValue i) (w_st w')).
Proof.
  induction l as [|[i f] l IH]; intros w Hok Hl Hp W; cbn [sforeach fst snd].
  - exists w. split; [reflexivity|]. split; [auto|]. split; [auto|]. intros i f [].
  - destruct (Hp i f (or_introl eq_refl)) as (c & Hc & Hu).
    assert (Hin : In (i, f) (numbered C)) by (apply Hl; now left).
    pose proof (numbered_no C _ _ Hin) as Hno. pose proof (proj1 (numbered_in C i f) Hin) as Hnth.
    pose proof (proj1 (Forall_forall _ _) (proj2 Hok) _ (nth_error_In _ _ Hnth)) as (F1 & F2 & F3 & F4 & F5 & F6 & _).
    destruct (dref_steady C I Post _ c w Hok F4 Hc W) as (w1 & D1 & W1 & O1 & _ & M1).
    assert (Hl' : incl l (numbered C)) by (intros x Hx; apply Hl; now right).
    assert (Hp' : forall i f, In (i, f) l -> field_unpacks C I Post i f) by (intros j g Hj; apply Hp; now right).
    assert (G : exists w2, unpack_field C i f w = (Ok tt, w2) /\ steady_world C I Post w2
              /\ (forall r, Post r (w_st w) -> Post r (w_st w2)) /\ Post (mkRid KUnpackValue i) (w_st w2)).
    { unfold unpack_field, wrap. unfold sbind at 1. rewrite D1. destruct (truthy c).
      - destruct Hu as (U1 & v & U2).
        destruct (unpack_after_steady C I Post _ w1 Hok F6 U1 W1) as (w2 & E2 & W2 & O2 & M2).
        destruct (dref_steady C I Post _ v w2 Hok (in_field C KUnpackValue i eq_refl Hno) U2 W2) as (w3 & D3 & W3 & O3 & P3 & M3).
        exists w3. split; [|split; [exact W3|split; [auto|exact P3]]].
        unfold sbind at 1. rewrite E2. unfold sbind at 1. rewrite D3. reflexivity.
      - unfold w_setattr. destruct W1 as (A & B & D). destruct (Hu _ B) as (U1 & U2 & U3).
        eexists. split; [reflexivity|]. cbn [w_st]. split; [|split; [auto|exact U2]].
        split; [exact A|]. split; [exact U1|]. cbn [w_ctx w_st]. eapply agrees_state; eauto. }
    destruct G as (w2 & E2 & W2 & M2 & P2).
    destruct (IH w2 Hok Hl' Hp' W2) as (w' & E & W' & M' & P').
    exists w'. split; [unfold sbind at 1; rewrite E2; exact E|]. split; [exact W'|]. split; [auto|].
    intros j g [Hj|Hj]; [inversion Hj; subst; auto|eauto].
Qed.

(** One field after the other, each with what is known then. *)
Lemma steady_world_narrow C (I I2 J : bst -> Prop) (Post : rid -> bst -> Prop) w : (forall s, I2 s <-> I s /\ J s) ->
  (forall s s', J s -> (forall r, Post r s -> Post r s') -> J s') -> steady_world C I Post w -> J (w_st w) -> steady_world C I2 Post w.
Proof.
  intros E K (A & B & D) Hj. split; [exact A|]. split; [apply E; auto|]. intros r v L. destruct (D r v L) as (P & m & Hm).
  split; [exact P|]. exists m. eapply steady_narrow; eauto.
Qed.
Lemma skipn_cons_inv {A} (l : list A) : forall k x r, skipn k l = x :: r -> nth_error l k = Some x /\ skipn (S k) l = r.
Proof.
  induction l as [|y l IH]; intros [|k] x r E; cbn [skipn] in E; try discriminate.
  - injection E as -> ->. auto.
  - destruct (IH k x r E) as (A1 & A2). auto.
Qed.
Lemma unpack_fields_phased C (I : nat -> bst -> Prop) (Post : rid -> bst -> Prop) :
  cls_ok C -> (forall k f, nth_error (k_fields C) k = Some f -> field_unpacks C (I k) Post k f) ->
  (forall k f s, nth_error (k_fields C) k = Some f -> (I (S k) s <-> I k s /\ Post (mkRid KUnpackValue k) s)) ->
  forall l off w, l = skipn off (numbered C) -> (off <= List.length (k_fields C))%nat -> steady_world C (I off) Post w ->
  exists w', sforeach l (fun p => unpack_field C (fst p) (snd p)) w = (Ok tt, w') /\ steady_world C (I (List.length (k_fields C))) Post w'.
Proof.
  intros Hok Hf Hi l. induction l as [|[i f] l IH]; intros off w El Hoff W.
  - assert (off = List.length (k_fields C)).
    { pose proof (f_equal (@List.length _) El) as X. rewrite skipn_length in X. unfold numbered in X. rewrite combine_length, seq_length in X. cbn in X. lia. }
    subst off. exists w. split; [reflexivity|exact W].
  - destruct (skipn_cons_inv _ _ _ _ (eq_sym El)) as (Hn & El').
    assert (Hin : In (i, f) (numbered C)) by (eapply nth_error_In; eauto).
    assert (Hio : i = off /\ nth_error (k_fields C) off = Some f).
    { pose proof (proj1 (numbered_in C i f) Hin) as N. assert (i = off) as ->; [|auto].
      unfold numbered in Hn. assert (nth_error (map fst (combine (seq 0 (List.length (k_fields C))) (k_fields C))) off = Some i) as X by (rewrite nth_error_map, Hn; reflexivity).
      rewrite map_fst_combine in X by (rewrite seq_length; lia).
      assert (Hlt : (off < List.length (k_fields C))%nat) by (rewrite <- (seq_length (List.length (k_fields C)) 0); apply nth_error_Some; congruence).
      rewrite (nth_error_nth' _ 0%nat) in X by (rewrite seq_length; lia). rewrite seq_nth in X by lia. injection X as <-. lia. }
    destruct Hio as (-> & Hnth).
    destruct (unpack_fields_steady C (I off) Post [(off, f)] w Hok) as (w1 & E1 & W1 & _ & P1).
    { intros x [<-|[]]. exact Hin. }
    { intros j g [E|[]]. injection E as <- <-. now apply Hf. }
    { exact W. }
    destruct (IH (S off) w1) as (w' & E & W').
    { symmetry. exact El'. }
    { assert (nth_error (k_fields C) off <> None) as X by congruence. apply nth_error_Some in X. lia. }
    { eapply (steady_world_narrow C (I off) (I (S off)) (fun s => Post (mkRid KUnpackValue off) s)); [intros s; now apply (Hi off f)|auto|exact W1|].
      apply (P1 off f). now left. }
    exists w'. split; [|exact W']. cbn [sforeach fst snd] in E1 |- *. unfold sbind at 1. unfold sbind in E1 at 1.
    destruct (unpack_field C off f w) as [[[]|e] w2]; [|discriminate]. unfold sret in E1. injection E1 as ->. exact E.
Qed.

Lemma steady_start C (I : bst -> Prop) (Post : rid -> bst -> Prop) s x : I s -> steady_world C I Post (mkW new_ctx s x).
Proof. intros H. split; [reflexivity|]. split; [exact H|]. intros r v L. discriminate. Qed.

Lemma buffer_unpack_steady C (I : bst -> Prop) (Post : rid -> bst -> Prop) input v o n : cls_ok C -> input_buffer input = Ok v -> I (mkBst o (Some v)) ->
  (forall i f, In (i, f) (numbered C) -> field_unpacks C I Post i f) -> st C I Post (mkRid KTotal 0) (rnum n) ->
  exists s, buffer_unpack C input o = (Ok n, s_obj s) /\ I s
    /\ forall i f, nth_error (k_fields C) i = Some f -> Post (mkRid KUnpackValue i) s.
Proof.
  intros Hok Hi HI Hf Ht. unfold buffer_unpack. rewrite Hi.
  destruct (unpack_fields_steady C I Post (numbered C) _ Hok (incl_refl _) Hf (steady_start C I Post _ (new_baa []) HI))
    as (w1 & E1 & W1 & _ & P1). rewrite E1.
  destruct (dref_steady C I Post _ _ w1 Hok (or_introl eq_refl) Ht W1) as (w2 & E2 & W2 & _ & _ & M2). rewrite E2.
  exists (w_st w2). rewrite num_bits_rnum. split; [reflexivity|]. split; [apply W2|].
  intros i f H. apply M2. eapply P1. apply numbered_in. exact H.
Qed.

Lemma buffer_unpack_phased C (I : nat -> bst -> Prop) (Post : rid -> bst -> Prop) input v o n : cls_ok C -> input_buffer input = Ok v ->
  I 0%nat (mkBst o (Some v)) -> (forall k f, nth_error (k_fields C) k = Some f -> field_unpacks C (I k) Post k f) ->
  (forall k f s, nth_error (k_fields C) k = Some f -> (I (S k) s <-> I k s /\ Post (mkRid KUnpackValue k) s)) ->
  st C (I (List.length (k_fields C))) Post (mkRid KTotal 0) (rnum n) ->
  exists s, buffer_unpack C input o = (Ok n, s_obj s) /\ I (List.length (k_fields C)) s.
Proof.
  intros Hok Hi HI Hf Hs Ht. unfold buffer_unpack. rewrite Hi.
  destruct (unpack_fields_phased C I Post Hok Hf Hs (numbered C) 0 _ eq_refl ltac:(lia) (steady_start C (I 0%nat) Post _ (new_baa []) HI))
    as (w1 & E1 & W1). rewrite E1.
  destruct (dref_steady C _ Post _ _ w1 Hok (or_introl eq_refl) Ht W1) as (w2 & E2 & W2 & _ & _ & M2). rewrite E2.
  exists (w_st w2). rewrite num_bits_rnum. split; [reflexivity|]. apply W2.
Qed.

Lemma buffer_pack_steady C (I : bst -> Prop) (Post : rid -> bst -> Prop) (parts : nat -> part) o : cls_ok C -> I (mkBst o None) ->
  (forall i f, In (i, f) (numbered C) -> exists c, st C I Post (f_pack_if f) c /\
     match parts i with
     | None => truthy c = false
     | Some (b, r) => truthy c = true /\ st C I Post (mkRid KPack i) (RBuf b) /\ st C I Post (mkRid KPackPos i) (RRanges r)
                      /\ buf_ok b /\ part_fits (Some (b, r))
     end) ->
  exists s bits, let ps := map (fun p => parts (fst p)) (numbered C) in
    I s /\ (forall i f, In (i, f) (numbered C) -> parts i <> None -> Post (mkRid KPack i) s) /\ Forall part_fits ps /\ output_of ps bits
    /\ (~ too_long (k_size C) (bytes_of_bits bits) -> buffer_pack C o = (Ok (sized (k_size C) (bytes_of_bits bits)), s_obj s))
    /\ (too_long (k_size C) (bytes_of_bits bits) -> buffer_pack C o = (Err AssertionError, s_obj s)).
Proof.
  intros Hok HI Hf.
  destruct (pack_fields_steady C I Post parts (numbered C) _ Hok (incl_refl _) Hf (steady_start C I Post _ (new_baa []) HI) out_ok_new)
    as (w & E & W & O & P & _ & Q).
  assert (F : Forall part_fits (map (fun p => parts (fst p)) (numbered C))).
  { apply Forall_forall. intros x Hx. apply in_map_iff in Hx. destruct Hx as ([i f] & <- & Hx).
    destruct (Hf i f Hx) as (c & _ & Hp). cbn [fst]. destruct (parts i) as [[b r]|]; [apply Hp|exact Logic.I]. }
  cbn [w_out] in P. rewrite new_baa_bits in P by constructor.
  exists (w_st w), (ba_bits (w_out w)). cbv zeta. split; [apply W|]. split; [exact Q|]. split; [exact F|]. split; [apply output_of_placed; assumption|].
  unfold buffer_pack, start_pack. rewrite E. destruct O as (KO & _). unfold ba_ok in KO. rewrite buf_bytes_spec by exact KO. cbn [rbind]. fold (ba_bits (w_out w)).
  destruct (fix_size_c C (bytes_of_bits (ba_bits (w_out w)))) as (S1 & S2).
  split; intros T; [rewrite S1 by auto|rewrite S2 by auto]; reflexivity.
Qed.

(** ** What holds of the object once a field was unpacked *)
Definition attr_post (C : cls) (vals : nat -> value) (r : rid) (s : bst) : Prop :=
  match r_kind r with
  | KUnpackValue => forall f, nth_error (k_fields C) (r_no r) = Some f -> Marshal.lookup (s_obj s) (f_name f) = Some (vals (r_no r))
  | _ => True
  end.

Lemma attr_post_other C vals k i s : k <> KUnpackValue -> attr_post C vals (mkRid k i) s.
Proof. unfold attr_post. cbn [r_kind]. destruct k; intros H; try exact Logic.I. congruence. Qed.

Lemma static_part C i v : ~ static (nodes C) (mkRid KPart i) v.
Proof.
  intros (n & H). inversion H as [? ? m Hp]; subst. unfold nodes in Hp. cbn [r_kind r_no] in Hp.
  destruct (nth_error (k_fields C) i) as [f|]; [|inversion Hp]. cbn [field_node] in Hp. unfold BufferModel.part in Hp.
  inversion Hp as [|? ? ? ? ? ? ? Hq]; subst. inversion Hq.
Qed.
Lemma static_unpack C i v : ~ static (nodes C) (mkRid KUnpack i) v.
Proof.
  intros (n & H). inversion H as [? ? m Hp]; subst. unfold nodes in Hp. cbn [r_kind r_no] in Hp.
  destruct (nth_error (k_fields C) i) as [f|]; [|inversion Hp]. cbn [field_node] in Hp. unfold unpack_ref in Hp.
  inversion Hp as [|? ? ? ? ? ? Hr Hq]; subst. eapply static_part. eexists. exact Hr.
Qed.
Lemma static_unpack_value C i v : ~ static (nodes C) (mkRid KUnpackValue i) v.
Proof.
  intros (n & H). inversion H as [? ? m Hp]; subst. unfold nodes in Hp. cbn [r_kind r_no] in Hp.
  destruct (nth_error (k_fields C) i) as [f|] eqn:E; [|inversion Hp]. cbn [field_node] in Hp. unfold unpack_value in Hp.
  destruct (f_after f).
  - inversion Hp as [|? ? ? ? ? ? Hr Hq]; subst. inversion Hr as [? ? m Hp2]; subst. unfold nodes in Hp2. cbn [r_kind r_no] in Hp2.
    rewrite E in Hp2. cbn [field_node] in Hp2. unfold field_unpack in Hp2. inversion Hp2 as [|? ? ? ? ? ? Hr2 Hq2]; subst.
    eapply static_unpack. eexists. exact Hr2.
  - inversion Hp.
Qed.
Lemma attr_post_static C vals r v : static (nodes C) r v -> forall s, attr_post C vals r s.
Proof.
  intros H s. destruct r as [k i]. destruct k; try exact Logic.I. exfalso. eapply static_unpack_value. exact H.
Qed.

Lemma attr_post_set C vals i f s : NoDup (map f_name (k_fields C)) -> nth_error (k_fields C) i = Some f ->
  let s' := mkBst (set_attr (s_obj s) (f_name f) (vals i)) (s_input s) in
  attr_post C vals (mkRid KUnpackValue i) s' /\ forall r, attr_post C vals r s -> attr_post C vals r s'.
Proof.
  intros N H s'. split.
  - intros g Hg. cbn [r_no] in *. rewrite H in Hg. inversion Hg; subst. cbn [s' s_obj]. apply lookup_set_same.
  - intros [k j] Hr. destruct k; try exact Logic.I. intros g Hg. cbn [r_no] in *. cbn [s' s_obj].
    destruct (string_dec (f_name f) (f_name g)) as [E|E].
    + assert (i = j).
      { apply (proj1 (NoDup_nth_error (map f_name (k_fields C))) N).
        - rewrite map_length. apply nth_error_Some. congruence.
        - rewrite !nth_error_map, H, Hg. cbn. congruence. }
      subst j. rewrite H in Hg. inversion Hg; subst. apply lookup_set_same.
    + rewrite lookup_set_other by auto. exact (Hr g Hg).
Qed.

(** ** Fixed layouts *)
Lemma closed_not_open l : Forall closed l -> list_is_open l = false.
Proof.
  unfold list_is_open. induction 1 as [|r l (H & H') _ IH]; [reflexivity|]. cbn [existsb]. rewrite IH.
  unfold is_open. destruct (r_stop r); [reflexivity|congruence].
Qed.
Lemma not_open_stop l : list_is_open l = false -> forall m, exists k, max_stop_from m l = Some k /\ m <= k
  /\ (forall r e, In r l -> r_stop r = Some e -> e <= k) /\ (k = m \/ exists r, In r l /\ r_stop r = Some k).
Proof.
  induction l as [|r l IH]; intros Ho m; cbn [max_stop_from].
  - exists m. split; [reflexivity|]. split; [lia|]. split; [intros ? ? []|auto].
  - unfold list_is_open in Ho. cbn [existsb] in Ho. apply orb_false_iff in Ho. destruct Ho as (Ho1 & Ho2). unfold is_open in Ho1.
    destruct (r_stop r) as [e|] eqn:Er; [|discriminate]. destruct (IH Ho2 (Z.max m e)) as (k & K1 & K2 & K3 & K4).
    exists k. split; [exact K1|]. split; [lia|]. split.
    + intros q x [->|Hq] Hx; [rewrite Er in Hx; inversion Hx; subst; lia|eauto].
    + destruct K4 as [->|(q & Q1 & Q2)].
      * destruct (Z.max_spec m e) as [(_ & ->)|(_ & ->)]; [right; exists r; split; [now left|auto]|auto].
      * right. exists q. split; [now right|auto].
Qed.
Lemma largest_stop_unique l m m' : largest_stop l m -> largest_stop l m' -> m = m'.
Proof.
  intros (A1 & A2 & A3) (B1 & B2 & B3).
  assert (forall x y : Z, (x = 0 \/ exists r, In r l /\ r_stop r = Some x) -> 0 <= y -> (forall r e, In r l -> r_stop r = Some e -> e <= y) -> x <= y) as H.
  { intros x y [->|(r & R1 & R2)] Hy K; [exact Hy|eauto]. }
  apply Z.le_antisymm; eauto.
Qed.
Lemma max_stop_largest l m : list_is_open l = false -> largest_stop l m -> list_max_stop l = Some m.
Proof.
  intros Ho H. unfold list_max_stop. destruct (not_open_stop l Ho 0) as (k & K1 & K2 & K3 & K4). rewrite K1. f_equal.
  apply (largest_stop_unique l); [|exact H]. split; [exact K3|]. split; [exact K4|exact K2].
Qed.
Lemma given_size_st f r n : (match f_size f with Some x => n = rnum x | None => n = rsize (list_byte_length r) end) ->
  opt_num_bits n = Ok (given_size f r).
Proof.
  unfold given_size. destruct (f_size f) as [x|]; intros ->; [exact (opt_num_bits_rsize (Some x))|apply opt_num_bits_rsize].
Qed.

Lemma pairwise_app_l a b : pairwise_disjoint (a ++ b) -> pairwise_disjoint a.
Proof.
  unfold pairwise_disjoint. induction a as [|x a IH]; cbn [app]; intros H; [constructor|].
  inversion H as [|? ? H1 H2]; subst. constructor; [|auto]. apply Forall_app in H1. apply H1.
Qed.
Lemma pairwise_app_r a b : pairwise_disjoint (a ++ b) -> pairwise_disjoint b.
Proof. induction a as [|x a IH]; cbn [app]; intros H; [auto|]. inversion H; subst. auto. Qed.
Lemma pairwise_concat ls l : pairwise_disjoint (List.concat ls) -> In l ls -> pairwise_disjoint l.
Proof.
  induction ls as [|x ls IH]; intros H [].
  - subst. cbn [List.concat] in H. eapply pairwise_app_l; eauto.
  - cbn [List.concat] in H. apply pairwise_app_r in H. auto.
Qed.

Lemma numbered_map {A} C (g : nat -> A) : map (fun p => g (fst p)) (numbered C) = map g (seq 0 (List.length (k_fields C))).
Proof.
  unfold numbered. rewrite <- (map_map fst g). f_equal. apply map_fst_combine. rewrite seq_length. lia.
Qed.

Lemma Forall2_nth_iff {A B} (P : A -> B -> Prop) l : forall l',
  Forall2 P l l' <-> List.length l = List.length l' /\ forall i a b, nth_error l i = Some a -> nth_error l' i = Some b -> P a b.
Proof.
  induction l as [|a l IH]; intros [|b l']; cbn [List.length].
  - split; [|constructor]. intros _. split; [reflexivity|]. intros [|i] ? ? H; discriminate.
  - split; [intros H; inversion H|intros (H & _); discriminate].
  - split; [intros H; inversion H|intros (H & _); discriminate].
  - split.
    + intros H. inversion H as [|? ? ? ? H1 H2]; subst. apply IH in H2. destruct H2 as (L & H2). split; [congruence|].
      intros [|i] x y Hx Hy; cbn in Hx, Hy; [congruence|eauto].
    + intros (L & H). constructor; [apply (H 0%nat); reflexivity|]. apply IH. split; [congruence|]. intros i x y Hx Hy. apply (H (S i)); auto.
Qed.

(** Proofs: packing and unpacking when every reference has one value throughout. *)
From Verif Require Import Base BaseProofs Marshal Range RangeRef RangeSpec RangeFacts RangeArith IoBuffer IoSpec IoProofs IoFacts IoOutput
  RefEngine RefSpec RefProofs RefStatic RefSteady BufferModel BufferSpec BufferPlace BufferFacts BufferPack.
From Coq Require Import ZArith List Bool String Lia ZifyBool ZifyNat.
Import ListNotations.
Open Scope list_scope.
Open Scope Z_scope.
Ltac Zify.zify_post_hook ::= Z.div_mod_to_equations.

Section Steady.
Variable C : cls.
Variable I : bst -> Prop.
Variable Post : rid -> bst -> Prop.
Definition st (r : rid) (v : rv) : Prop := exists n, steady (nodes C) I Post r v n.
Definition stp (p : bprog) (v : rv) (Q : bst -> Prop) : Prop := exists n, steady_prog (nodes C) I Post p v Q n.

Lemma st_intro r v : stp (nodes C r) v (Post r) -> st r v.
Proof. intros (n & H). exists (S n). now constructor. Qed.
Lemma stp_ret v (Q : bst -> Prop) : (forall s, I s -> Q s) -> stp (PRet v) v Q.
Proof. intros H. exists 0%nat. now constructor. Qed.
Lemma stp_after r k v w (Q : bst -> Prop) : st r v -> stp (k v) w (fun s => Post r s -> Q s) -> stp (PRef r k) w Q.
Proof. intros (n & H) (m & K). exists (n + m)%nat. econstructor; eauto. Qed.
Lemma stp_ref r k v w Q : st r v -> stp (k v) w Q -> stp (PRef r k) w Q.
Proof. intros H (m & K). eapply stp_after; [exact H|]. exists m. eapply steady_prog_weaken; [exact K|auto]. Qed.
Lemma stp_ctx f k v w Q : step_ok I Post f v (fun _ => True) -> stp (k v) w Q -> stp (PCtx f k) w Q.
Proof. intros H (n & K). exists n. econstructor; eauto. Qed.
Lemma stp_last f v Q : step_ok I Post f v Q -> stp (PCtx f PRet) v Q.
Proof. intros H. exists 0%nat. now constructor. Qed.
Lemma stp_lift m v (Q : bst -> Prop) : m = Ok v -> (forall s, I s -> Q s) -> stp (ret m) v Q.
Proof. intros -> H. now apply stp_ret. Qed.
(** Reading the context without changing it. *)
Lemma stp_read f k v w Q : (forall s, I s -> f s = (Ok v, s)) -> stp (k v) w Q -> stp (PCtx f k) w Q.
Proof. intros H K. apply (stp_ctx f k v); [|exact K]. intros s Hs. exists s. rewrite (H s Hs). auto. Qed.

Definition st_arg (a : arg) (v : rv) : Prop := match a with AConst x => v = x | ARef r => st r v end.
Lemma stp_ev a k v w Q : st_arg a v -> stp (k v) w Q -> stp (ev a k) w Q.
Proof. destruct a; cbn [st_arg ev]; [intros ->; auto|]. intros H K. eapply stp_ref; eauto. Qed.
Lemma stp_ev_list l : forall vs k w Q, Forall2 st_arg l vs -> stp (k vs) w Q -> stp (ev_list l k) w Q.
Proof.
  induction l as [|a l IH]; intros vs k w Q F K; inversion F; subst; cbn [ev_list]; [exact K|].
  eapply stp_ev; [eassumption|]. eapply IH; eassumption.
Qed.

(** References that are static are steady. *)
Hypothesis Post_static : forall r v, static (nodes C) r v -> forall s, I s -> Post r s.
Lemma static_st r v : static (nodes C) r v -> st r v.
Proof.
  intros (n & H). exists n. revert H. revert n. revert v. revert r.
  enough (G : forall r v n, pure (nodes C) r v n -> steady (nodes C) I Post r v n) by exact G.
  intros r v n H.
  induction H as [r v n H IH|v|r k v n w n' H1 IH1 H2 IH2] using pure_mut
    with (P0 := fun p v n _ => forall Q : bst -> Prop, (forall s, I s -> Q s) -> steady_prog (nodes C) I Post p v Q n).
  - constructor. apply IH. apply (Post_static r v). exists (S n). now constructor.
  - intros Q HQ. now constructor.
  - intros Q HQ. econstructor; [exact IH1|apply IH2; auto].
Qed.
Lemma static_st_args l vs : Forall2 (static_arg C) l vs -> Forall2 st_arg l vs.
Proof.
  induction 1 as [|a v l vs Ha F IH]; constructor; auto. destruct a; cbn [static_arg st_arg] in *; [auto|now apply static_st].
Qed.

Variable i : nat.
Variable f : field.
Hypothesis Hf : nth_error (k_fields C) i = Some f.
Hypothesis Post_other : forall k s, k <> KUnpackValue -> k <> KPackValue -> k <> KPack -> Post (mkRid k i) s.

Lemma node_eq k : field_kind k = true -> nodes C (mkRid k i) = field_node k i f.
Proof. intros H. unfold nodes. cbn [r_kind r_no]. rewrite Hf. destruct k; try discriminate; reflexivity. Qed.
Ltac other := intros; apply Post_other; discriminate.

(** ** Packing *)
Lemma st_pack_pos_closed l : st (f_where_pack f) (RRanges l) -> has_overlaps l = Ok false -> list_is_open l = false ->
  st (mkRid KPackPos i) (RRanges l).
Proof.
  intros H1 H2 H3. apply st_intro. rewrite node_eq by reflexivity. cbn [field_node]. unfold pack_pos.
  eapply stp_ref; [exact H1|]. cbn [as_ranges]. rewrite H2, H3. apply stp_ret. other.
Qed.
Lemma st_pack_len_closed l : st (f_where_pack f) (RRanges l) -> has_overlaps l = Ok false -> list_is_open l = false ->
  st (mkRid KPackLen i) (rsize (list_byte_length l)).
Proof.
  intros H1 H2 H3. apply st_intro. rewrite node_eq by reflexivity. cbn [field_node]. unfold pack_len.
  eapply stp_ref; [exact H1|]. cbn [as_ranges]. rewrite H3. eapply stp_ref; [apply st_pack_pos_closed; eauto|].
  apply stp_lift; [reflexivity|other].
Qed.
Lemma st_pack_len_open l : st (f_where_pack f) (RRanges l) -> list_is_open l = true -> st (mkRid KPackLen i) (RVal VNone).
Proof.
  intros H1 H3. apply st_intro. rewrite node_eq by reflexivity. cbn [field_node]. unfold pack_len.
  eapply stp_ref; [exact H1|]. cbn [as_ranges]. rewrite H3. apply stp_ret. other.
Qed.
Lemma st_pack v args n b sz : (forall s, I s -> Post (mkRid KPackValue i) s -> Post (mkRid KPack i) s) ->
  st (mkRid KPackValue i) (RVal v) ->
  match f_size f with Some x => n = rnum x | None => st (mkRid KPackLen i) n end ->
  opt_num_bits n = Ok sz -> Forall2 st_arg (f_pack_args f) args -> f_pack f args v sz = Ok b ->
  st (mkRid KPack i) (RBuf b).
Proof.
  intros HP H1 H2 H3 H4 H5. apply st_intro. rewrite node_eq by reflexivity. cbn [field_node]. unfold pack_ref.
  eapply stp_after; [exact H1|]. cbn [as_value].
  assert (G : stp (ev_list (f_pack_args f) (fun args => ret (let* v := as_value (RVal v) in let* n := opt_num_bits n in
             let* b := f_pack f args v n in Ok (RBuf b)))) (RBuf b) (fun s => Post (mkRid KPackValue i) s -> Post (mkRid KPack i) s)).
  { eapply stp_ev_list; [exact H4|]. apply stp_lift; [|exact HP]. cbn [as_value rbind]. rewrite H3. cbn [rbind]. rewrite H5. reflexivity. }
  unfold with_size. destruct (f_size f) as [x|]; [subst n; exact G|]. eapply stp_ref; [exact H2|exact G].
Qed.
Lemma st_pack_pos_open l b r : st (f_where_pack f) (RRanges l) -> has_overlaps l = Ok false -> list_is_open l = true ->
  st (mkRid KPack i) (RBuf b) -> close_packed (8 * blen b) 0 l = Ok r -> st (mkRid KPackPos i) (RRanges r).
Proof.
  intros H1 H2 H3 H4 H5. apply st_intro. rewrite node_eq by reflexivity. cbn [field_node]. unfold pack_pos.
  eapply stp_ref; [exact H1|]. cbn [as_ranges]. rewrite H2, H3. eapply stp_ref; [exact H4|].
  apply stp_lift; [|other]. cbn [as_buf rbind]. rewrite H5. reflexivity.
Qed.
Lemma st_pack_value v : (forall s, I s -> Post (mkRid KPackValue i) s) -> f_before f = None -> (forall s, I s -> Marshal.lookup (s_obj s) (f_name f) = Some v) ->
  st (mkRid KPackValue i) (RVal v).
Proof.
  intros HP H1 H2. apply st_intro. rewrite node_eq by reflexivity. cbn [field_node]. unfold pack_value. rewrite H1. unfold get_attr.
  apply stp_read with (v := RVal v); [intros s Hs; now rewrite H2|]. apply stp_ret. exact HP.
Qed.
(** Assigning the attribute before packing. *)
Lemma stp_assign v k : (forall s, I s -> let s' := mkBst (set_attr (s_obj s) (f_name f) v) (s_input s) in
     I s' /\ Post (mkRid k i) s' /\ forall r, Post r s -> Post r s') ->
  stp (assign (f_name f) (RVal v)) (RVal v) (Post (mkRid k i)).
Proof. intros H. apply stp_last. intros s Hs. cbn [as_value]. eexists. split; [reflexivity|]. exact (H s Hs). Qed.
Lemma st_pack_value_hook v b : f_before f = Some b ->
  (forall s, I s -> let s' := mkBst (set_attr (s_obj s) (f_name f) v) (s_input s) in
     I s' /\ Post (mkRid KPackValue i) s' /\ forall r, Post r s -> Post r s') ->
  match b with
  | BValue x => x = v
  | BRef r => st r (RVal v)
  | BFun g => forall s, I s -> g (s_obj s) = (Ok v, s_obj s)
  end -> st (mkRid KPackValue i) (RVal v).
Proof.
  intros H1 H2 H3. apply st_intro. rewrite node_eq by reflexivity. cbn [field_node]. unfold pack_value. rewrite H1. destruct b as [g|x|r].
  - apply stp_read with (v := RVal VNone); [reflexivity|]. eapply stp_ref with (v := RVal v); [|now apply stp_assign].
    apply st_intro. rewrite node_eq by reflexivity. cbn [field_node]. unfold before_value. rewrite H1.
    apply stp_read with (v := RVal v); [|apply stp_ret; other]. intros s Hs. rewrite (H3 s Hs). destruct s; reflexivity.
  - subst x. now apply stp_assign.
  - apply stp_read with (v := RVal VNone); [reflexivity|]. eapply stp_ref; [exact H3|]. now apply stp_assign.
Qed.
Lemma st_field_pack v : st (mkRid KPackValue i) v -> (forall s, I s -> s_input s = None) -> st (mkRid KField i) v.
Proof.
  intros H1 H2. apply st_intro. rewrite node_eq by reflexivity. cbn [field_node]. unfold field_value, if_pack.
  apply stp_read with (v := rbool true); [intros s Hs; now rewrite (H2 s Hs)|]. cbn [truthy rbool Z.eqb negb].
  eapply stp_ref; [exact H1|]. apply stp_ret. other.
Qed.

(** ** Unpacking *)
Variable input : buf.
Hypothesis Hinput : forall s, I s -> s_input s = Some input.

Lemma st_unpack_pos_closed l : st (f_where_unpack f) (RRanges l) -> has_overlaps l = Ok false -> list_is_open l = false ->
  st (mkRid KUnpackPos i) (RRanges l).
Proof.
  intros H1 H2 H3. apply st_intro. rewrite node_eq by reflexivity. cbn [field_node]. unfold unpack_pos.
  eapply stp_ref; [exact H1|]. cbn [as_ranges]. rewrite H2, H3. apply stp_ret. other.
Qed.
Lemma st_unpack_pos_open l r : st (f_where_unpack f) (RRanges l) -> has_overlaps l = Ok false -> list_is_open l = true ->
  list_to_closed l (8 * input_length input) = Ok r -> st (mkRid KUnpackPos i) (RRanges r).
Proof.
  intros H1 H2 H3 H4. apply st_intro. rewrite node_eq by reflexivity. cbn [field_node]. unfold unpack_pos.
  eapply stp_ref; [exact H1|]. cbn [as_ranges]. rewrite H2, H3.
  apply stp_read with (v := RRanges r); [|apply stp_ret; other]. intros s Hs. rewrite (Hinput s Hs), H4. reflexivity.
Qed.
Lemma st_unpack_len l : st (mkRid KUnpackPos i) (RRanges l) -> st (mkRid KUnpackLen i) (rsize (list_byte_length l)).
Proof.
  intros H1. apply st_intro. rewrite node_eq by reflexivity. cbn [field_node]. unfold unpack_len.
  eapply stp_ref; [exact H1|]. apply stp_lift; [reflexivity|other].
Qed.
Lemma st_part l b : st (mkRid KUnpackPos i) (RRanges l) -> input_get input l = Ok b -> st (mkRid KPart i) (RBuf b).
Proof.
  intros H1 H2. apply st_intro. rewrite node_eq by reflexivity. cbn [field_node]. unfold BufferModel.part.
  eapply stp_ref; [exact H1|]. apply stp_read with (v := RBuf b); [|apply stp_ret; other].
  intros s Hs. rewrite (Hinput s Hs). cbn [as_ranges rbind]. rewrite H2. reflexivity.
Qed.
Lemma st_unpack l b args n sz v len : st (mkRid KUnpackPos i) (RRanges l) -> input_get input l = Ok b ->
  match f_size f with Some x => n = rnum x | None => n = rsize (list_byte_length l) end ->
  opt_num_bits n = Ok sz -> Forall2 st_arg (f_unpack_args f) args -> (forall s, I s -> f_unpack f args (s_obj s) b sz = Ok (v, len)) ->
  st (mkRid KUnpack i) (RPair v len).
Proof.
  intros H1 H2 H3 H4 H5 H6. apply st_intro. rewrite node_eq by reflexivity. cbn [field_node]. unfold unpack_ref.
  eapply stp_ref; [eapply st_part; eauto|].
  match goal with |- stp (with_size _ _ ?k) _ _ => assert (G : stp (k n) (RPair v len) (Post (mkRid KUnpack i))) end.
  { eapply stp_ev_list; [exact H5|]. apply stp_read with (v := RPair v len); [|apply stp_ret; other].
    intros s Hs. cbn [as_buf rbind]. rewrite H4. cbn [rbind]. rewrite H6 by exact Hs. reflexivity. }
  unfold with_size. destruct (f_size f) as [x|]; [subst n; exact G|]. subst n. eapply stp_ref; [apply st_unpack_len; eauto|exact G].
Qed.
Lemma st_unpack_value v len : f_after f = None -> st (mkRid KUnpack i) (RPair v len) ->
  (forall s, I s -> let s' := mkBst (set_attr (s_obj s) (f_name f) v) (s_input s) in
     I s' /\ Post (mkRid KUnpackValue i) s' /\ forall r, Post r s -> Post r s') ->
  st (mkRid KUnpackValue i) (RVal v).
Proof.
  intros H1 H2 H3. apply st_intro. rewrite node_eq by reflexivity. cbn [field_node]. unfold unpack_value. rewrite H1.
  apply stp_read with (v := RVal VNone); [reflexivity|].
  eapply stp_ref with (v := RVal v).
  - apply st_intro. rewrite node_eq by reflexivity. cbn [field_node]. unfold field_unpack. eapply stp_ref; [exact H2|].
    apply stp_lift; [reflexivity|other].
  - apply stp_last. intros s Hs. cbn [as_value]. eexists. split; [reflexivity|]. exact (H3 s Hs).
Qed.
Lemma st_field_unpack v : st (mkRid KUnpackValue i) v -> st (mkRid KField i) v.
Proof.
  intros H1. apply st_intro. rewrite node_eq by reflexivity. cbn [field_node]. unfold field_value, if_pack.
  apply stp_read with (v := rbool false); [intros s Hs; now rewrite (Hinput s Hs)|]. cbn [truthy rbool Z.eqb negb].
  eapply stp_ref; [exact H1|]. apply stp_ret. other.
Qed.
End Steady.

(** ** Evaluation of a steady reference in pack or unpack *)
Definition steady_world (C : cls) (I : bst -> Prop) (Post : rid -> bst -> Prop) (w : world) : Prop :=
  c_nodes (w_ctx w) = [] /\ I (w_st w) /\ agrees rid_eqb (nodes C) I Post (c_cache (w_ctx w)) (w_st w).

Lemma dref_steady C I Post r v w : cls_ok C -> rid_in C r -> st C I Post r v -> steady_world C I Post w ->
  exists w', dref C r w = (Ok v, w') /\ steady_world C I Post w' /\ w_out w' = w_out w /\ Post r (w_st w')
    /\ (forall x, Post x (w_st w) -> Post x (w_st w')).
Proof.
  intros Hok Hr (n & H) (W1 & W2 & W3). unfold dref.
  pose proof (deref_ends C Hok r (w_ctx w) (w_st w) Hr W1) as T.
  destruct (deref rid_eqb (nodes C) (fuel C) r (w_ctx w) (w_st w)) as [[[o c'] s']|] eqn:E; [|congruence].
  destruct (deref_steady rid_eqb rid_eqb_spec (nodes C) I Post (fuel C) r v n H _ _ _ _ _ E W2 W3) as (E1 & E2 & E3 & E4 & E5).
  { rewrite W1. intros x w0 m []. }
  pose proof (deref_kept rid_eqb rid_eqb_spec (nodes C) _ _ _ _ _ _ _ E) as (K & _).
  subst o. eexists. split; [reflexivity|]. cbn [w_ctx w_st w_out]. split; [split; [cbn [w_ctx]; congruence|split; assumption]|].
  split; [reflexivity|]. split; assumption.
Qed.

Lemma pack_fields_steady C I Post (parts : nat -> part) l : forall w, cls_ok C -> incl l (numbered C) ->
  (forall i f, In (i, f) l -> exists c, st C I Post (f_pack_if f) c /\
     match parts i with
     | None => truthy c = false
     | Some (b, r) => truthy c = true /\ st C I Post (mkRid KPack i) (RBuf b) /\ st C I Post (mkRid KPackPos i) (RRanges r)
                      /\ buf_ok b /\ part_fits (Some (b, r))
     end) ->
  steady_world C I Post w -> out_ok (w_out w) ->
  exists w', sforeach l (fun p => pack_field C (fst p) (snd p)) w = (Ok tt, w') /\ steady_world C I Post w' /\ out_ok (w_out w')
    /\ placed_all (map (fun p => parts (fst p)) l) (ba_bits (w_out w)) (ba_bits (w_out w'))
    /\ (forall r, Post r (w_st w) -> Post r (w_st w'))
    /\ (forall i f, In (i, f) l -> parts i <> None -> Post (mkRid KPack i) (w_st w')).
Proof.
  induction l as [|[i f] l IH]; intros w Hok Hl Hp W O; cbn [sforeach map fst snd].
  - exists w. split; [reflexivity|]. split; [auto|]. split; [auto|]. split; [constructor|]. split; [auto|]. intros ? ? [].
  - destruct (Hp i f (or_introl eq_refl)) as (c & Hc & Hpart).
    assert (Hin : In (i, f) (numbered C)) by (apply Hl; now left).
    pose proof (numbered_no C _ _ Hin) as Hno. pose proof (proj1 (numbered_in C i f) Hin) as Hnth.
    pose proof (proj1 (Forall_forall _ _) (proj2 Hok) _ (nth_error_In _ _ Hnth)) as (F1 & F2 & F3 & F4 & F5).
    destruct (dref_steady C I Post _ c w Hok F3 Hc W) as (w1 & D1 & W1 & O1 & _ & M1).
    assert (Hl' : incl l (numbered C)) by (intros x Hx; apply Hl; now right).
    assert (Hp' : forall i f, In (i, f) l -> exists c, st C I Post (f_pack_if f) c /\
     match parts i with
     | None => truthy c = false
     | Some (b, r) => truthy c = true /\ st C I Post (mkRid KPack i) (RBuf b) /\ st C I Post (mkRid KPackPos i) (RRanges r)
                      /\ buf_ok b /\ part_fits (Some (b, r))
     end) by (intros j g Hj; apply Hp; now right).
    destruct (parts i) as [[b r]|] eqn:Ep.
    + destruct Hpart as (T1 & T2 & T3 & T4 & T5).
      destruct (dref_steady C I Post _ _ w1 Hok (in_field C KPack i eq_refl Hno) T2 W1) as (w2 & D2 & W2 & O2 & Q2 & M2).
      destruct (dref_steady C I Post _ _ w2 Hok (in_field C KPackPos i eq_refl Hno) T3 W2) as (w3 & D3 & W3 & O3 & _ & M3).
      destruct T5 as (Tc & Tl).
      destruct (output_set_spec b r (w_out w3) T4 (proj1 (Forall_closed r) Tc)) as (S1 & _); [now rewrite O3, O2, O1|].
      rewrite total_len_positions in S1 by exact Tc. destruct (S1 Tl) as (x & X1 & X2 & X3).
      set (w4 := mkW (w_ctx w3) (w_st w3) x).
      destruct (IH w4 Hok Hl' Hp') as (w' & E & W' & O' & P' & M' & Q'); [exact W3|exact X2|].
      exists w'. split; [|split; [exact W'|split; [exact O'|split; [|split; [auto|]]]]].
      * unfold sbind at 1. unfold pack_field. unfold sbind at 1. rewrite D1, T1. unfold wrap, sbind at 1. rewrite D2.
        unfold sbind at 1. rewrite D3. unfold sbind at 1, slift at 1. cbn [as_buf]. unfold sbind at 1, slift at 1. cbn [as_ranges].
        unfold out_set. rewrite X1. fold w4. exact E.
      * apply (placed_all_cons (Some (b, r)) _ _ (ba_bits x)); [|exact P'].
        econstructor; [|constructor]. rewrite O3, O2, O1 in X3. exact X3.
      * intros j g [Hj|Hj] Np; [inversion Hj; subst; apply M'; apply M3; exact Q2|eauto].
    + destruct (IH w1 Hok Hl' Hp' W1) as (w' & E & W' & O' & P' & M' & Q'); [now rewrite O1|].
      exists w'. split; [|split; [exact W'|split; [exact O'|split; [|split; [auto|]]]]].
      * unfold sbind at 1. unfold pack_field. unfold sbind at 1. rewrite D1, Hpart. unfold sret. exact E.
      * constructor. rewrite O1 in P'. exact P'.
      * intros j g [Hj|Hj] Np; [inversion Hj; subst; congruence|eauto].
Qed.

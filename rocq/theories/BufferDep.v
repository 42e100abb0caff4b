(** Proofs: round trips of Buffer classes whose layout may depend on values. *)
From Verif Require Import Base BaseProofs Marshal FieldFacts Range RangeRef RangeSpec RangeFacts RangeArith IoBuffer IoSpec IoProofs IoFacts IoOutput
  RefEngine RefSpec RefProofs RefStatic RefSteady BufferModel BufferSpec SeeSpec WideSpec BufferPlace BufferFacts BufferPack BufferLayout BufferTrip OpenRanges.
From Coq Require Import ZArith List Bool String Lia ZifyBool ZifyNat.
Import ListNotations.
Open Scope list_scope.
Open Scope Z_scope.
Ltac Zify.zify_post_hook ::= Z.div_mod_to_equations.

Scheme given_mut := Induction for given Sort Prop
  with given_prog_mut := Induction for given_prog Sort Prop.
Scheme sgiven_mut := Induction for sgiven Sort Prop
  with sgiven_prog_mut := Induction for sgiven_prog Sort Prop.

(** ** References that depend on field values only *)
Section Given.
Variable C : cls.
Variable know : lfact -> Prop.
Lemma given_inv_field k i v : given C know (mkRid k i) v -> field_kind k = true -> k <> KField -> exists f,
  nth_error (k_fields C) i = Some f /\ given_prog C know (field_node k i f) v.
Proof.
  intros H K N. inversion H as [| | | | |? ? Hp]; subst; [congruence|discriminate|discriminate|discriminate|discriminate|].
  unfold nodes in Hp. cbn [r_kind r_no] in Hp. destruct k; try discriminate; destruct (nth_error (k_fields C) i) as [f|]; eauto; inversion Hp.
Qed.
Lemma given_pack_value i v : ~ given C know (mkRid KPackValue i) v.
Proof.
  intros H. destruct (given_inv_field _ _ _ H eq_refl) as (f & _ & Hp); [discriminate|]. cbn [field_node] in Hp. unfold pack_value in Hp.
  destruct (f_before f) as [[]|]; inversion Hp.
Qed.
Lemma given_pack i v : ~ given C know (mkRid KPack i) v.
Proof.
  intros H. destruct (given_inv_field _ _ _ H eq_refl) as (f & _ & Hp); [discriminate|]. cbn [field_node] in Hp. unfold pack_ref in Hp.
  inversion Hp as [|? ? ? ? Hr Hq]; subst. eapply given_pack_value, Hr.
Qed.
Lemma given_unpack_value i v : ~ given C know (mkRid KUnpackValue i) v.
Proof.
  assert (P : forall v, ~ given C know (mkRid KPart i) v).
  { intros v0 H. destruct (given_inv_field _ _ _ H eq_refl) as (f & _ & Hp); [discriminate|]. cbn [field_node] in Hp. unfold BufferModel.part in Hp.
    inversion Hp as [|? ? ? ? Hr Hq]; subst. inversion Hq. }
  assert (U : forall v, ~ given C know (mkRid KUnpack i) v).
  { intros v0 H. destruct (given_inv_field _ _ _ H eq_refl) as (f & _ & Hp); [discriminate|]. cbn [field_node] in Hp. unfold unpack_ref in Hp.
    inversion Hp as [|? ? ? ? Hr Hq]; subst. eapply P, Hr. }
  intros H. destruct (given_inv_field _ _ _ H eq_refl) as (f & _ & Hp); [discriminate|]. cbn [field_node] in Hp. unfold unpack_value in Hp.
  destruct (f_after f); inversion Hp as [|? ? ? ? Hr Hq]; subst.
  destruct (given_inv_field _ _ _ Hr eq_refl) as (g & _ & Hp2); [discriminate|]. cbn [field_node] in Hp2. unfold field_unpack in Hp2.
  inversion Hp2 as [|? ? ? ? Hr2 _]; subst. eapply U, Hr2.
Qed.

Variable I : bst -> Prop.
Variable Post : rid -> bst -> Prop.
(** What a lfact means for references. *)
Definition fact_st (x : lfact) : Prop :=
  match x with
  | FValue i v => st C I Post (mkRid KField i) (RVal v)
  | FEnd i m => forall k, nth_error (k_users C) k = Some (UAfter i) -> st C I Post (mkRid KUser k) (rnum m)
  | FTotal m => k_size C = None -> forall k, nth_error (k_users C) k = Some UTotal -> st C I Post (mkRid KUser k) (rnum m)
  end.
Hypothesis Hknow : forall x, know x -> fact_st x.
Hypothesis Pgiven : forall r v, given C know r v -> forall s, I s -> Post r s.
Lemma given_st r v : given C know r v -> st C I Post r v.
Proof.
  intros H.
  induction H as [i v H|k n i v H1 H2 H3|k i m H1 H2|k m H1 H2 H3|k m H1 H2|r v H IH|v|r k v w H1 IH1 H2 IH2] using given_mut
    with (P0 := fun p v _ => forall Q : bst -> Prop, (forall s, I s -> Q s) -> stp C I Post p v Q).
  - exact (Hknow _ H).
  - apply st_intro. cbn [nodes r_kind r_no]. unfold nodes. cbn [r_kind r_no]. rewrite H1. cbn [user_prog]. rewrite H2.
    apply stp_read with (v := RVal VNone); [reflexivity|]. eapply stp_ref; [exact (Hknow _ H3)|]. apply stp_ret.
    apply (Pgiven _ (RVal v)). eapply given_attr; eauto.
  - exact (Hknow _ H2 k H1).
  - exact (Hknow _ H3 H2 k H1).
  - apply st_intro. unfold nodes. cbn [r_kind r_no]. rewrite H1. cbn [user_prog]. unfold total_prog. rewrite H2.
    apply stp_read with (v := rnum m); [reflexivity|]. assert (E : forall (X Y : bprog), match rnum m with RVal VNone => X | _ => Y end = Y).
    { intros X Y. unfold rnum. destruct (m mod 8 =? 0); reflexivity. }
    rewrite E. apply stp_ret. apply (Pgiven _ (rnum m)). now apply given_size_known.
  - apply st_intro. apply IH. apply (Pgiven r v). now constructor.
  - intros Q HQ. now apply stp_ret.
  - intros Q HQ. eapply stp_ref; [exact IH1|]. apply IH2. auto.
Qed.
Lemma given_st_args l vs : Forall2 (given_arg C know) l vs -> Forall2 (st_arg C I Post) l vs.
Proof.
  induction 1 as [|a v l vs Ha F IH]; constructor; auto. destruct a; cbn [given_arg st_arg] in *; [auto|now apply given_st].
Qed.
Variable ok : attrs -> Prop.
Hypothesis Hsee : forall s, I s -> ok (s_obj s).
Hypothesis Puser : forall k s, Post (mkRid KUser k) s.
Lemma sgiven_st r v : sgiven C know ok r v -> st C I Post r v.
Proof.
  intros H. induction H as [r v H|k v H IH|v|r k v w H1 IH1 H2 IH2|g k v w H1 H2 IH2] using sgiven_mut
    with (P0 := fun p v _ => forall Q : bst -> Prop, (forall s, I s -> Q s) -> stp C I Post p v Q).
  - now apply given_st.
  - apply st_intro. apply IH. intros s _. apply Puser.
  - intros Q HQ. now apply stp_ret.
  - intros Q HQ. eapply stp_ref; [exact IH1|]. apply IH2. auto.
  - intros Q HQ. apply stp_read with (v := v); [|apply IH2; exact HQ]. intros s Hs. apply H1. auto.
Qed.
Lemma sgiven_st_args l vs : Forall2 (sgiven_arg C know ok) l vs -> Forall2 (st_arg C I Post) l vs.
Proof.
  induction 1 as [|a v l vs Ha F IH]; constructor; auto. destruct a; cbn [sgiven_arg st_arg] in *; [auto|now apply sgiven_st].
Qed.
End Given.

Lemma given_mono C (k1 k2 : lfact -> Prop) : (forall x, k1 x -> k2 x) -> forall r v, given C k1 r v -> given C k2 r v.
Proof.
  intros Hk r v H.
  induction H as [i v H|k n i v H1 H2 H3|k i m H1 H2|k m H1 H2 H3|k m H1 H2|r v H IH|v|r k v w H1 IH1 H2 IH2] using given_mut
    with (P0 := fun p v _ => given_prog C k2 p v);
    [constructor|eapply given_attr|eapply given_after|apply given_total|apply given_size_known|apply given_node|constructor|econstructor]; eauto.
Qed.
Lemma static_given C know r v : static (nodes C) r v -> given C know r v.
Proof.
  intros (n & H). induction H as [r v n H IH|v|r k v n w n' H1 IH1 H2 IH2] using pure_mut
    with (P0 := fun p v _ _ => given_prog C know p v); [now apply given_node|constructor|econstructor; eauto].
Qed.
Lemma static_given_args C know l vs : Forall2 (static_arg C) l vs -> Forall2 (given_arg C know) l vs.
Proof.
  induction 1 as [|a v l vs Ha F IH]; constructor; auto. destruct a; cbn [static_arg given_arg] in *; [auto|now apply static_given].
Qed.

(** ** Positions *)
Lemma has_overlaps_single x : has_overlaps [x] = Ok false.
Proof. reflexivity. Qed.
Lemma set_attr_keys (a : attrs) m x : In m (map fst a) -> map fst (set_attr a m x) = map fst a.
Proof.
  induction a as [|[k w] a IH]; cbn [map fst In set_attr]; [intros []|]. intros H. destruct (String.eqb k m) eqn:E; [reflexivity|].
  cbn [map fst]. f_equal. apply IH. apply String.eqb_neq in E. tauto.
Qed.

Lemma range_bits_longer bits a x m : 0 <= a <= x -> x <= m -> exists more,
  range_bits bits (mkR a (Some m)) = range_bits bits (mkR a (Some x)) ++ more /\ (m = x -> more = []).
Proof.
  intros H1 H2. unfold range_bits, slice_bits, py_slice. cbn [r_start r_stop]. cbv zeta.
  set (c := py_clamp (zlen bits)). assert (B : c a <= c x <= c m) by (pose proof (zlen_nonneg bits); unfold c, py_clamp; destruct (a <? 0) eqn:?, (x <? 0) eqn:?, (m <? 0) eqn:?; lia).
  exists (skipn (Z.to_nat (c x - c a)) (firstn (Z.to_nat (c m - c a)) (skipn (Z.to_nat (c a)) bits))). split.
  - rewrite <- (firstn_skipn (Z.to_nat (c x - c a)) (firstn (Z.to_nat (c m - c a)) _)) at 1. f_equal.
    rewrite firstn_firstn. f_equal. lia.
  - intros ->. apply skipn_all2. rewrite firstn_length. lia.
Qed.
Lemma byte_offset_longer l a x m u s : x <= m -> byte_offset (l ++ [mkR a (Some x)]) u = Ok s -> byte_offset (l ++ [mkR a (Some m)]) u = Ok s.
Proof.
  intros H. revert u. induction l as [|r l IH]; intros u; cbn [app byte_offset].
  - unfold byte_length. cbn [r_start r_stop]. destruct (u <=? x - a) eqn:E; [|discriminate]. intros E'. replace (u <=? m - a) with true by lia. exact E'.
  - destruct (byte_length r); [|auto]. destruct (u <=? z); auto.
Qed.

Lemma same_field C (Hnames : NoDup (map f_name (k_fields C))) i j f g : nth_error (k_fields C) i = Some f -> nth_error (k_fields C) j = Some g -> f_name f = f_name g -> i = j /\ f = g.
Proof.
  intros Hi Hj E. assert (i = j).
  { apply (proj1 (NoDup_nth_error (map f_name (k_fields C))) Hnames).
    - rewrite map_length. apply nth_error_Some. congruence.
    - rewrite !nth_error_map, Hi, Hj. cbn. congruence. }
  subst j. split; [reflexivity|congruence].
Qed.

(** Facts about the places of a layout. *)
Section Places.
Variable lay : layout.
Lemma in_places i e : nth_error lay i = Some (Some e) -> In (e_place e) (places lay).
Proof. intros H. unfold places. apply in_flat_map. exists (Some e). split; [eapply nth_error_In; eauto|now left]. Qed.
Lemma neat_facts r : neat r -> Forall closed r /\ has_overlaps r = Ok false /\ list_is_open r = false.
Proof.
  intros (N1 & N2 & N3). split; [exact N1|]. split; [|now apply closed_not_open]. destruct N3 as [(x & ->)|Hne]; [apply has_overlaps_single|].
  destruct (has_overlaps_spec _ Hne) as (b & B1 & B2). rewrite B1. f_equal. now apply B2.
Qed.
Lemma neat_shape r l x : neat r -> r = l ++ [x] -> pairwise_disjoint (l ++ [x]) /\ (l = [] \/ Forall nonempty_range (l ++ [x])).
Proof.
  intros (N1 & N2 & N3) E. rewrite <- E. split; [exact N2|]. destruct N3 as [(y & Y)|Hne]; [left|now right].
  rewrite E in Y. destruct l as [|z l]; [reflexivity|]. destruct l; discriminate.
Qed.
Lemma apart_neat : apart (places lay) -> Forall neat (places lay).
Proof.
  intros (A1 & A2 & A3). apply Forall_forall. intros r Hr. split; [|split].
  - apply Forall_forall. intros q Hq. apply (proj1 (Forall_forall _ _) A1). apply in_concat. eauto.
  - eapply pairwise_concat; eauto.
  - exact (proj1 (Forall_forall _ _) A3 r Hr).
Qed.
Hypothesis Hneat : Forall neat (places lay).
Lemma entry_neat i e : nth_error lay i = Some (Some e) -> neat (e_place e).
Proof. intros H. exact (proj1 (Forall_forall _ _) Hneat _ (in_places i e H)). Qed.
End Places.

Section Placing.
Variable C : cls.
Variable lay : layout.
Variable o : attrs.
Variables vrank qrank : nat -> nat.
Hypothesis Hok : cls_ok C.
Hypothesis Hlen : List.length lay = List.length (k_fields C).
Hypothesis Hlay : forall i f e, nth_error (k_fields C) i = Some f -> nth_error lay i = Some (Some e) -> placed_as C lay o vrank qrank i f e.
Hypothesis Hneat : Forall neat (places lay).
Hypothesis Hnames : NoDup (map f_name (k_fields C)).

Lemma place_facts i e : nth_error lay i = Some (Some e) ->
  Forall closed (e_place e) /\ has_overlaps (e_place e) = Ok false /\ list_is_open (e_place e) = false.
Proof. intros H. exact (neat_facts _ (entry_neat lay Hneat i e H)). Qed.
Lemma place_shape i e l x : nth_error lay i = Some (Some e) -> e_place e = l ++ [x] ->
  pairwise_disjoint (l ++ [x]) /\ (l = [] \/ Forall nonempty_range (l ++ [x])).
Proof. intros H. exact (neat_shape _ l x (entry_neat lay Hneat i e H)). Qed.

(** *** Packing *)
Definition hooked i f e := nth_error (k_fields C) i = Some f /\ f_before f <> None /\ nth_error lay i = Some (Some e).
Definition pack_inv (s : bst) : Prop := s_input s = None /\ forall m, Marshal.lookup (s_obj s) m = Marshal.lookup o m
  \/ exists i f e, hooked i f e /\ f_name f = m /\ Marshal.lookup (s_obj s) m = Some (e_value e).
Definition pack_post (r : rid) (s : bst) : Prop :=
  match r_kind r with
  | KPackValue | KPack => forall f e, hooked (r_no r) f e -> Marshal.lookup (s_obj s) (f_name f) = Some (e_value e)
  | _ => True
  end.
Lemma pack_post_other i k s : k <> KUnpackValue -> k <> KPackValue -> k <> KPack -> pack_post (mkRid k i) s.
Proof. intros H1 H2 H3. unfold pack_post. cbn [r_kind]. destruct k; try exact Logic.I; congruence. Qed.
Lemma pack_post_given know r v : given C know r v -> forall s, pack_inv s -> pack_post r s.
Proof.
  intros H s _. destruct r as [k i]. destruct k; try exact Logic.I; exfalso; [eapply given_pack_value|eapply given_pack]; eauto.
Qed.
Lemma pack_set i f e : hooked i f e -> forall s, pack_inv s -> let s' := mkBst (set_attr (s_obj s) (f_name f) (e_value e)) (s_input s) in
  pack_inv s' /\ pack_post (mkRid KPackValue i) s' /\ forall r, pack_post r s -> pack_post r s'.
Proof.
  intros Hh s (I1 & I2) s'. pose proof Hh as (H1 & H2 & H3). split; [|split].
  - split; [exact I1|]. intros m. cbn [s' s_obj]. destruct (string_dec (f_name f) m) as [<-|E].
    + right. exists i, f, e. split; [exact Hh|]. split; [reflexivity|]. apply lookup_set_same.
    + rewrite lookup_set_other by auto. apply I2.
  - intros g e' (G1 & G2 & G3). cbn [r_no] in *. replace g with f by congruence. replace e' with e by congruence. apply lookup_set_same.
  - intros [k j] Hr. destruct k; try exact Logic.I; intros g e' Hg; cbn [r_no s' s_obj] in *;
      (destruct (string_dec (f_name f) (f_name g)) as [E|E];
        [destruct (same_field C Hnames i j f g H1 (proj1 Hg) E) as (-> & ->); rewrite lookup_set_same; destruct Hg as (_ & _ & Hg); congruence
        |rewrite lookup_set_other by auto; exact (Hr g e' Hg)]).
Qed.
Lemma pack_same s : pack_inv s -> same_but_assigned C o (s_obj s).
Proof.
  intros (_ & H) m Hm. destruct (H m) as [E|(i & f & e & (H1 & H2 & _) & H4 & _)]; [exact E|].
  exfalso. apply Hm. exists f. split; [eapply nth_error_In; eauto|]. auto.
Qed.

Lemma entry_field i e : nth_error lay i = Some (Some e) -> exists f, nth_error (k_fields C) i = Some f /\ placed_as C lay o vrank qrank i f e.
Proof.
  intros H. destruct (nth_error (k_fields C) i) as [f|] eqn:E.
  - exists f. split; [reflexivity|]. exact (Hlay i f e E H).
  - exfalso. apply nth_error_None in E. assert (nth_error lay i <> None) as N by congruence. apply nth_error_Some in N. lia.
Qed.

Local Notation pst := (st C pack_inv pack_post).
Lemma pack_packed i f e pargs : nth_error (k_fields C) i = Some f -> nth_error lay i = Some (Some e) ->
  open_until (e_write e) (e_place e) (fun front a => a + 8 * blen (e_buf e) - zlen (all_positions front)) ->
  f_pack f pargs (e_value e) (given_size f (e_write e)) = Ok (e_buf e) ->
  pst (f_where_pack f) (RRanges (e_write e)) -> Forall2 (st_arg C pack_inv pack_post) (f_pack_args f) pargs ->
  pst (mkRid KPackValue i) (RVal (e_value e)) -> pst (mkRid KPack i) (RBuf (e_buf e)).
Proof.
  intros Hf He L2 A3 W Ha Hv. destruct (place_facts i e He) as (P1 & P2 & P3).
  assert (K : forall n, match f_size f with Some x => n = rnum x | None => pst (mkRid KPackLen i) n end ->
              opt_num_bits n = Ok (given_size f (e_write e)) -> pst (mkRid KPack i) (RBuf (e_buf e))).
  { intros m M1 M2. eapply (st_pack C pack_inv pack_post i f Hf (e_value e) pargs m); [|exact Hv|exact M1|exact M2|exact Ha|exact A3].
    intros s _ H. exact H. }
  destruct L2 as [E|(l0 & a & E1 & E2 & E3)].
  - rewrite E in *. apply (K (match f_size f with Some x => rnum x | None => rsize (list_byte_length (e_place e)) end)).
    + destruct (f_size f); [reflexivity|]. now apply (st_pack_len_closed C pack_inv pack_post i f Hf (pack_post_other i)).
    + apply (given_size_st f). destruct (f_size f); reflexivity.
  - rewrite E1 in *. apply (K (match f_size f with Some x => rnum x | None => RVal VNone end)).
    + destruct (f_size f); [reflexivity|]. apply (st_pack_len_open C pack_inv pack_post i f Hf (pack_post_other i) (l0 ++ [mkR a None])); [exact W|apply open_last].
    + unfold given_size. destruct (f_size f) as [x|] eqn:Ex; [exact (opt_num_bits_rsize (Some x))|]. now rewrite open_last_length.
Qed.
Lemma pack_placed i f e : nth_error (k_fields C) i = Some f -> nth_error lay i = Some (Some e) ->
  open_until (e_write e) (e_place e) (fun front a => a + 8 * blen (e_buf e) - zlen (all_positions front)) -> buf_ok (e_buf e) ->
  pst (f_where_pack f) (RRanges (e_write e)) -> (e_write e <> e_place e -> pst (mkRid KPack i) (RBuf (e_buf e))) ->
  pst (mkRid KPackPos i) (RRanges (e_place e)).
Proof.
  intros Hf He L2 A4 W Hk. destruct (place_facts i e He) as (P1 & P2 & P3). destruct L2 as [E|(l0 & a & E1 & E2 & E3)].
  - rewrite E in *. now apply (st_pack_pos_closed C pack_inv pack_post i f Hf (pack_post_other i)).
  - rewrite E1 in *. assert (KP : pst (mkRid KPack i) (RBuf (e_buf e))) by (apply Hk; rewrite E2; intros X; apply app_inv_head in X; discriminate).
    rewrite E2 in P1. destruct (place_shape i e _ _ He E2) as (D1 & D2).
    apply (st_pack_pos_open C pack_inv pack_post i f Hf (pack_post_other i) (l0 ++ [mkR a None]) (e_buf e));
      [exact W|exact (open_last_apart _ _ _ E3 D1 D2)|apply open_last|exact KP|].
    rewrite E2. now apply close_packed_last.
Qed.

(** The facts that can be used. *)
Lemma pack_end_st k i f m l : nth_error (k_users C) k = Some (UAfter i) -> nth_error (k_fields C) i = Some f ->
  pst (mkRid KPackPos i) (RRanges l) -> list_is_open l = false -> largest_stop l m -> pst (mkRid KUser k) (rnum m).
Proof.
  intros Hk Hf Hp Ho Hm. apply st_intro. unfold nodes. cbn [r_kind r_no]. rewrite Hk. cbn [user_prog]. rewrite Hf. unfold after_prog, if_pack.
  apply stp_read with (v := rbool true); [intros s Hs; now rewrite (proj1 Hs)|]. cbn [truthy rbool Z.eqb negb].
  eapply stp_ref; [exact Hp|]. apply stp_lift; [|intros; exact Logic.I]. cbn [as_ranges rbind]. now rewrite (max_stop_largest l m Ho Hm).
Qed.
Lemma stp_ev_refs I Post l : forall vs k w Q, Forall2 (st C I Post) l vs -> stp C I Post (k vs) w Q -> stp C I Post (ev_refs l k) w Q.
Proof.
  induction l as [|a l IH]; intros vs k w Q F K; inversion F; subst; cbn [ev_refs]; [exact K|].
  eapply stp_ref; [eassumption|]. eapply IH; eassumption.
Qed.
Lemma all_ranges ls : rmap_list as_ranges (map RRanges ls) = Ok ls.
Proof. induction ls as [|l ls IH]; [reflexivity|]. cbn [map rmap_list as_ranges rbind]. rewrite IH. reflexivity. Qed.
Lemma all_present : Forall present lay -> forall i f, nth_error (k_fields C) i = Some f -> exists e, nth_error lay i = Some (Some e).
Proof.
  intros H i f Hf. destruct (nth_error lay i) as [x|] eqn:E.
  - destruct (proj1 (Forall_forall _ _) H x (nth_error_In _ _ E)) as (e & ->). eauto.
  - exfalso. apply nth_error_None in E. assert (nth_error (k_fields C) i <> None) as N by congruence. apply nth_error_Some in N. lia.
Qed.
Lemma pack_total_st k m : nth_error (k_users C) k = Some UTotal -> k_size C = None -> Forall present lay ->
  largest_stop (List.concat (places lay)) m ->
  (forall i e, nth_error lay i = Some (Some e) -> pst (mkRid KPackPos i) (RRanges (e_place e))) -> pst (mkRid KUser k) (rnum m).
Proof.
  intros Hk Hs Hp Hm H. apply st_intro. unfold nodes. cbn [r_kind r_no]. rewrite Hk. cbn [user_prog]. unfold total_prog, if_pack. rewrite Hs. cbn [rsize].
  apply stp_read with (v := RVal VNone); [reflexivity|].
  apply stp_read with (v := rbool true); [intros s Hs'; now rewrite (proj1 Hs')|]. cbn [truthy rbool Z.eqb negb].
  apply stp_ev_refs with (vs := map RRanges (places lay)).
  - rewrite (numbered_map C (fun i => mkRid KPackPos i)). rewrite <- Hlen. clear - Hp H.
    assert (G : forall l off, (forall i e, nth_error l i = Some (Some e) -> pst (mkRid KPackPos (off + i)) (RRanges (e_place e))) -> Forall present l ->
      Forall2 pst (map (mkRid KPackPos) (seq off (List.length l))) (map RRanges (places l))).
    { induction l as [|x l IH]; intros off G P; [constructor|]. inversion P as [|? ? (e & ->) P']; subst. cbn [List.length seq map places flat_map app].
      constructor; [rewrite <- (Nat.add_0_r off); now apply (G 0%nat)|]. apply IH; [|exact P'].
      intros i e' He'. replace (S off + i)%nat with (off + S i)%nat by lia. now apply G. }
    apply G; [exact H|exact Hp].
  - apply stp_lift; [|intros; exact Logic.I]. rewrite all_ranges. cbn [rbind]. rewrite (max_stop_largest _ m); [reflexivity| |exact Hm].
    apply closed_not_open. apply Forall_forall. intros r Hr. apply in_concat in Hr. destruct Hr as (q & Q1 & Q2).
    pose proof (proj1 (Forall_forall _ _) Hneat q Q1) as (N & _). exact (proj1 (Forall_forall _ _) N r Q2).
Qed.

Lemma pack_facts_below k : 
  (forall i e, (vrank i < k)%nat -> nth_error lay i = Some (Some e) -> pst (mkRid KPackValue i) (RVal (e_value e))) ->
  (forall i e, (qrank i < k)%nat -> nth_error lay i = Some (Some e) -> pst (mkRid KPackPos i) (RRanges (e_place e))) ->
  forall x, known lay (below vrank qrank k) x -> fact_st C pack_inv pack_post x.
Proof.
  intros Hv Hq [i v|i m|m] (Hb & K); cbn [below fact_st] in *.
  - destruct K as (e & He & ->). destruct (entry_field i e He) as (f & Hf & _).
    apply (st_field_pack C pack_inv pack_post i f Hf (pack_post_other i)); [|intros s Hs; apply Hs]. auto.
  - destruct K as (e & He & Hm & _). destruct (entry_field i e He) as (f & Hf & _). intros k0 Hk0.
    eapply pack_end_st; [exact Hk0|exact Hf|apply Hq; [exact Hb|exact He]|apply (place_facts i e He)|exact Hm].
  - destruct K as (Hp & Hm). intros Hs k0 Hk0. eapply pack_total_st; eauto.
Qed.
Lemma below_mono k k' x : (k <= k')%nat -> known lay (below vrank qrank k) x -> known lay (below vrank qrank k') x.
Proof. intros H (Hb & K). split; [|exact K]. destruct x; cbn [below] in *; try lia. intros j. specialize (Hb j). lia. Qed.

Lemma pack_ranked k :
  (forall i e, (vrank i < k)%nat -> nth_error lay i = Some (Some e) -> pst (mkRid KPackValue i) (RVal (e_value e)))
  /\ (forall i e, (qrank i < k)%nat -> nth_error lay i = Some (Some e) -> pst (mkRid KPackPos i) (RRanges (e_place e))).
Proof.
  induction k as [|k (IHv & IHq)]; [split; intros; lia|].
  assert (Hfacts : forall x, known lay (below vrank qrank k) x -> fact_st C pack_inv pack_post x) by now apply pack_facts_below.
  assert (Hgiven : forall j r v, (j <= k)%nat -> given C (known lay (below vrank qrank j)) r v -> pst r v).
  { intros j r v Hj G. eapply given_st; [|exact (pack_post_given _)|exact G]. intros x Hx. apply Hfacts. eapply below_mono; eauto. }
  split; intros i e Hk He; destruct (entry_field i e He) as (f & Hf & L).
  - destruct L as (_ & _ & _ & L & _). unfold value_to_pack in L. destruct (f_before f) as [b|] eqn:Eb.
    + apply (st_pack_value_hook C pack_inv pack_post i f Hf (pack_post_other i) _ b Eb).
      * apply pack_set. split; [exact Hf|]. split; [congruence|exact He].
      * destruct b as [g|x|r]; [|exact L|].
        -- intros s Hs. apply L. now apply pack_same.
        -- eapply Hgiven; [|exact L]. lia.
    + apply (st_pack_value C pack_inv pack_post i f Hf); [|exact Eb|].
      * intros s _ g e' (G1 & G2 & _). cbn [r_no] in *. congruence.
      * intros s (_ & Hs). destruct (Hs (f_name f)) as [E|(j & g & e' & (G1 & G2 & G3) & G4 & _)]; [congruence|].
        destruct (same_field C Hnames j i g f G1 Hf G4) as (-> & ->). congruence.
  - destruct L as (L1 & L2 & L3 & _ & pargs & A1 & A3 & A4 & A5).
    assert (W : pst (f_where_pack f) (RRanges (e_write e))) by (eapply Hgiven; [|exact L1]; lia).
    apply (pack_placed i f e Hf He L2); [exact A4|exact W|]. intros Ne. eapply pack_packed; eauto.
    + eapply given_st_args; [|exact (pack_post_given _)|exact A1]. intros x Hx. apply Hfacts. eapply below_mono; [|exact Hx]. lia.
    + apply IHv; [|exact He]. specialize (L3 Ne). lia.
Qed.
Lemma pack_value_st i e : nth_error lay i = Some (Some e) -> pst (mkRid KPackValue i) (RVal (e_value e)).
Proof. apply (proj1 (pack_ranked (S (vrank i)))). lia. Qed.
Lemma pack_pos_st i e : nth_error lay i = Some (Some e) -> pst (mkRid KPackPos i) (RRanges (e_place e)).
Proof. apply (proj2 (pack_ranked (S (qrank i)))). lia. Qed.
Lemma pack_known P x : known lay P x -> fact_st C pack_inv pack_post x.
Proof.
  intros (_ & K). destruct x as [i v|i m|m]; cbn [fact_st].
  - destruct K as (e & He & ->). destruct (entry_field i e He) as (f & Hf & _).
    apply (st_field_pack C pack_inv pack_post i f Hf (pack_post_other i)); [|intros s Hs; apply Hs]. now apply pack_value_st.
  - destruct K as (e & He & Hm & _). destruct (entry_field i e He) as (f & Hf & _). intros k0 Hk0.
    eapply pack_end_st; [exact Hk0|exact Hf|exact (pack_pos_st i e He)|apply (place_facts i e He)|exact Hm].
  - destruct K as (Hp & Hm). intros Hs k0 Hk0. eapply pack_total_st; eauto. exact pack_pos_st.
Qed.
Lemma pack_given P r v : given C (known lay P) r v -> pst r v.
Proof. apply given_st; [exact (pack_known P)|exact (pack_post_given _)]. Qed.

End Placing.

Section Packing.
Variable C : cls.
Variable lay : layout.
Variable o : attrs.
Variables vrank qrank : nat -> nat.
Hypothesis Hok : cls_ok C.
Hypothesis Hlen : List.length lay = List.length (k_fields C).
Hypothesis Hlay : forall i f, nth_error (k_fields C) i = Some f ->
  match nth_error lay i with
  | Some (Some e) => packed_as C lay o vrank qrank i f e
  | _ => exists c, given C (known lay anything) (f_pack_if f) c /\ truthy c = false
  end.
Hypothesis Hapart : apart (places lay).
Hypothesis Hsize : within_size C lay.
Hypothesis Hnames : NoDup (map f_name (k_fields C)).

Lemma Hplaced : forall i f e, nth_error (k_fields C) i = Some f -> nth_error lay i = Some (Some e) -> placed_as C lay o vrank qrank i f e.
Proof.
  intros i f e Hf He. pose proof (Hlay i f Hf) as L. rewrite He in L. destruct L as (L1 & L2 & L3 & _ & L4 & L5). split; [exact L1|]. split; [exact L2|].
  split; [exact L3|]. split; [exact L4|exact L5].
Qed.
Let Hneat : Forall neat (places lay) := apart_neat lay Hapart.
Definition layout_part (i : nat) : part :=
  match nth_error lay i with Some (Some e) => Some (e_buf e, e_place e) | _ => None end.

Lemma pack_field_st i f : nth_error (k_fields C) i = Some f -> exists c, st C (pack_inv C lay o) (pack_post C lay) (f_pack_if f) c /\
  match layout_part i with
  | None => truthy c = false
  | Some (b, r) => truthy c = true /\ st C (pack_inv C lay o) (pack_post C lay) (mkRid KPack i) (RBuf b) /\ st C (pack_inv C lay o) (pack_post C lay) (mkRid KPackPos i) (RRanges r)
                   /\ buf_ok b /\ part_fits (Some (b, r))
  end.
Proof.
  intros Hf. pose proof (Hlay i f Hf) as L. unfold layout_part. destruct (nth_error lay i) as [[e|]|] eqn:He.
  2,3: destruct L as (c & L1 & L2); exists c; split; [eapply (pack_given C lay o vrank qrank Hlen Hplaced Hneat Hnames); eassumption|exact L2].
  destruct L as (L1 & L2 & _ & (c & L4 & L5) & _ & pargs & A1 & A).
  destruct (place_facts lay Hneat i e He) as (P1 & P2 & P3).
  exists c. split; [eapply (pack_given C lay o vrank qrank Hlen Hplaced Hneat Hnames); eassumption|]. split; [exact L5|]. split; [|split; [|split; [apply A|split; [exact P1|apply A]]]].
  - eapply (pack_packed C lay o Hneat); [exact Hf|exact He|exact L2|apply A|eapply (pack_given C lay o vrank qrank Hlen Hplaced Hneat Hnames); eassumption| |now apply (pack_value_st C lay o vrank qrank Hlen Hplaced Hneat Hnames)].
    eapply given_st_args; [|exact (pack_post_given C lay o _)|exact A1]. intros x Hx. eapply (pack_known C lay o vrank qrank Hlen Hplaced Hneat Hnames); exact Hx.
  - now apply (pack_pos_st C lay o vrank qrank Hlen Hplaced Hneat Hnames).
Qed.

Lemma layout_ranges : part_ranges (map layout_part (seq 0 (List.length (k_fields C)))) = List.concat (places lay).
Proof.
  rewrite <- Hlen. unfold layout_part, part_ranges, places. clear.
  assert (E : map (fun i => match nth_error lay i with Some (Some e) => Some (e_buf e, e_place e) | _ => None end) (seq 0 (List.length lay))
              = map (fun x => match x with Some e => Some (e_buf e, e_place e) | None => None end) lay).
  { induction lay as [|x l IH]; [reflexivity|]. cbn [List.length seq map nth_error]. f_equal. rewrite <- seq_shift, map_map. exact IH. }
  unfold part in *. rewrite E. clear E. induction lay as [|[e|] l IH]; [reflexivity| |]; cbn [map flat_map app List.concat]; [now rewrite IH|exact IH].
Qed.

Lemma layout_pack : exists bits o',
  let ps := map layout_part (seq 0 (List.length (k_fields C))) in
  (buffer_pack C o = (Ok (sized (k_size C) (bytes_of_bits bits)), o')
  /\ Forall part_fits ps /\ output_of ps bits
  /\ same_but_assigned C o o'
  /\ (forall i f e, nth_error (k_fields C) i = Some f -> nth_error lay i = Some (Some e) -> Marshal.lookup o' (f_name f) = Some (e_value e)))%Z.
Proof.
  destruct (buffer_pack_steady C (pack_inv C lay o) (pack_post C lay) layout_part o Hok) as (s & bits & K1 & K2 & K3 & K4 & K5 & _).
  - split; [reflexivity|]. intros m. now left.
  - intros i f Hin. apply numbered_in in Hin. now apply pack_field_st.
  - rewrite (numbered_map C layout_part) in K3, K4. exists bits, (s_obj s). cbv zeta.
    split; [apply K5|split; [exact K3|split; [exact K4|split; [now apply (pack_same C lay o)|]]]].
    + unfold within_size in Hsize. unfold too_long. destruct (k_size C) as [k|]; [|tauto]. destruct Hsize as (S1 & S2).
      assert (Hb : zlen bits <= k).
      { destruct K4 as ((_ & [Hz|(r & R1 & R2)] & _) & _); [lia|]. rewrite layout_ranges in R1. eapply S2; eauto. }
      destruct (bytes_of_bits_spec bits) as (_ & S3 & _). rewrite S3. unfold cdiv8. lia.
    + intros i f e Hf He. destruct (f_before f) as [b|] eqn:Eb.
      * assert (Hin : In (i, f) (numbered C)) by now apply numbered_in.
        assert (Np : layout_part i <> None) by (unfold layout_part; rewrite He; discriminate).
        apply (K2 i f Hin Np). split; [exact Hf|]. split; [congruence|exact He].
      * destruct K1 as (_ & K1). pose proof (Hlay i f Hf) as L. rewrite He in L. destruct L as (_ & _ & _ & _ & L & _).
        unfold value_to_pack in L. rewrite Eb in L.
        destruct (K1 (f_name f)) as [E|(j & g & e' & (G1 & G2 & G3) & G4 & _)]; [congruence|].
        destruct (same_field C Hnames j i g f G1 Hf G4) as (-> & ->). congruence.
Qed.

End Packing.

(** *** Unpacking *)
Section Reading.
Variable C : cls.
Variable lay : layout.
Variable n : Z.
Variable urank : nat -> nat.
Variable extra : attrs.
Variable sees : nat -> list nat.
Variable v : buf.
Hypothesis Hok : cls_ok C.
Hypothesis Hlen : List.length lay = List.length (k_fields C).
Hypothesis Hlay : forall i f, nth_error (k_fields C) i = Some f ->
  match nth_error lay i with
  | Some (Some e) => read_as C lay urank extra (sees i) (buf_bits v) (8 * input_length v) i f e
  | _ => not_read C lay f
  end.
Hypothesis Hextra : Forall (fun x => ~ In (fst x) (map f_name (k_fields C))) extra.
Hypothesis Hturn : forall i f, nth_error (k_fields C) i = Some f -> sees i = [] \/ in_turn C lay urank (sees i) i.
Hypothesis Hneat : Forall neat (places lay).
Hypothesis Hsize : read_size C lay n.
Hypothesis Hnames : NoDup (map f_name (k_fields C)).
Hypothesis Vok : buf_ok v.
Hypothesis Vview : is_view v.

Lemma entry_read_as i e : nth_error lay i = Some (Some e) -> exists f, nth_error (k_fields C) i = Some f
  /\ read_as C lay urank extra (sees i) (buf_bits v) (8 * input_length v) i f e.
Proof.
  intros H. destruct (nth_error (k_fields C) i) as [f|] eqn:E.
  - exists f. split; [reflexivity|]. pose proof (Hlay i f E) as L. rewrite H in L. exact L.
  - exfalso. apply nth_error_None in E. assert (nth_error lay i <> None) as N by congruence. apply nth_error_Some in N. lia.
Qed.
Definition read_value (i : nat) : value := layout_value lay i.
(** Fields with numbers below [ph] have been dealt with. *)
Definition unpack_inv (o2 : attrs) (ph : nat) (s : bst) : Prop :=
  s_input s = Some v /\ only_fields_changed C o2 (s_obj s)
  /\ forall j f, (j < ph)%nat -> nth_error (k_fields C) j = Some f -> Marshal.lookup (s_obj s) (f_name f) = Some (read_value j).

Section Unpack.
Variable o2 : attrs.
Hypothesis Ho2 : has_attrs extra o2.
Variable ph : nat.
Let I (s : bst) : Prop := unpack_inv o2 ph s.
Lemma I_input s : I s -> s_input s = Some v.
Proof. intros H. apply H. Qed.
Lemma I_set i f s : nth_error (k_fields C) i = Some f -> I s -> I (mkBst (set_attr (s_obj s) (f_name f) (read_value i)) (s_input s)).
Proof.
  intros Hf (H1 & (H2 & H3) & H4). split; [exact H1|]. split.
  2:{ intros j g Hj Hg. cbn [s_obj]. destruct (string_dec (f_name f) (f_name g)) as [E|E].
      - destruct (same_field C Hnames i j f g Hf Hg E) as (-> & ->). apply lookup_set_same.
      - rewrite lookup_set_other by auto. now apply H4. } cbn [s_obj s_input]. assert (Hin : In (f_name f) (map f_name (k_fields C))).
  { apply in_map. eapply nth_error_In; eauto. }
  split.
  - intros m Hm. rewrite lookup_set_other; [auto|]. intros E. apply Hm. rewrite <- E. exact Hin.
  - intros Hi. rewrite <- (H3 Hi). apply set_attr_keys. rewrite (H3 Hi). auto.
Qed.
Let Post := attr_post C read_value.
Lemma unpack_other i k s : k <> KUnpackValue -> k <> KPackValue -> k <> KPack -> Post (mkRid k i) s.
Proof. intros H _ _. now apply attr_post_other. Qed.
Lemma unpack_post_given know r x : given C know r x -> forall s, I s -> Post r s.
Proof. intros H s _. destruct r as [k i]. destruct k; try exact Logic.I. exfalso. eapply given_unpack_value; eauto. Qed.

(** What the unpacker sees has been dealt with. *)
Definition ready (i : nat) : Prop := Forall (fun j => (j < ph)%nat) (sees i).

Lemma I_sight i s : ready i -> I s -> sight C lay extra (sees i) (s_obj s).
Proof.
  intros Hrd (_ & (H1 & _) & Hs). split.
  - intros j g Hj Hg. apply (Hs j g); [|exact Hg]. exact (proj1 (Forall_forall _ _) Hrd j Hj).
  - intros m x Hin. rewrite H1; [now apply Ho2|]. exact (proj1 (Forall_forall _ _) Hextra (m, x) Hin).
Qed.

(** The position and what is read, once the position and arguments are known. *)
Lemma unpack_entry i f e (Hknow : forall x, known lay (read_before urank (urank i)) x -> fact_st C I Post x) :
  ready i -> nth_error (k_fields C) i = Some f -> nth_error lay i = Some (Some e) ->
  st C I Post (f_where_unpack f) (RRanges (e_read e))
  /\ exists from, reads_at e (8 * input_length v) from
  /\ st C I Post (mkRid KUnpackPos i) (RRanges from) /\ st C I Post (mkRid KUnpack i) (RPair (e_value e) (e_used e)).
Proof.
  intros Hrd Hf He. pose proof (Hlay i f Hf) as L. rewrite He in L.
  destruct L as (L3 & _ & _ & _ & uargs & from & A2 & Hfrom & A6).
  pose proof (entry_neat lay Hneat i e He) as Hn. destruct (neat_facts _ Hn) as (P1 & P2 & P3).
  assert (W : st C I Post (f_where_unpack f) (RRanges (e_read e))).
  { eapply sgiven_st; [exact Hknow|exact (unpack_post_given _)|intros s Hs; exact (I_sight i s Hrd Hs)|intros k s; now apply unpack_other|exact L3]. }
  split; [exact W|]. exists from. split; [exact Hfrom|].
  assert (U : st C I Post (mkRid KUnpackPos i) (RRanges from) /\ Forall closed from).
  { destruct Hfrom as [(E & ->)|(l0 & a & x & E1 & E2 & -> & E3 & E5)].
    - rewrite E in W. split; [now apply (st_unpack_pos_closed C I Post i f Hf (unpack_other i))|exact P1].
    - rewrite E1 in W. rewrite E2 in P1. destruct (neat_shape _ _ _ Hn E2) as (D1 & D2).
      assert (Pn : Forall closed (l0 ++ [mkR a (Some (8 * input_length v))])).
      { pose proof (last_bounds _ _ _ P1) as (B1 & B2). apply Forall_app in P1. apply Forall_app. split; [apply P1|]. constructor; [|constructor].
        split; [|discriminate]. split; cbn [r_start r_stop]; lia. }
      split; [|exact Pn].
      apply (st_unpack_pos_open C I Post i f Hf (unpack_other i) v I_input (l0 ++ [mkR a None]));
        [exact W|exact (open_last_apart _ _ _ E5 D1 D2)|apply open_last|]. exact (close_last _ _ _ Pn E5). }
  destruct U as (U & Pn). split; [exact U|].
  destruct (input_get_view v from Vok Vview (proj1 (Forall_closed _) Pn)) as (p & Q1 & Q2 & Q3 & Q4).
  apply (st_unpack C I Post i f Hf (unpack_other i) v I_input from p uargs
           (match f_size f with Some x => rnum x | None => rsize (list_byte_length from) end) (given_size f from)).
  - exact U.
  - exact Q1.
  - destruct (f_size f); reflexivity.
  - apply (given_size_st f from). destruct (f_size f); reflexivity.
  - eapply sgiven_st_args; [exact Hknow|exact (unpack_post_given _)|intros s Hs; exact (I_sight i s Hrd Hs)|intros k s; now apply unpack_other|exact A2].
  - intros s Hs. apply A6; auto. now apply I_sight.
Qed.

Lemma unpack_end_st k i f e from m : nth_error (k_users C) k = Some (UAfter i) -> nth_error (k_fields C) i = Some f ->
  nth_error lay i = Some (Some e) -> st C I Post (f_where_unpack f) (RRanges (e_read e)) -> reads_at e (8 * input_length v) from ->
  st C I Post (mkRid KUnpackPos i) (RRanges from) -> st C I Post (mkRid KUnpack i) (RPair (e_value e) (e_used e)) ->
  largest_stop (e_place e) m -> (e_read e = e_place e \/ e_used e = Some (zlen (all_positions (e_place e)))) ->
  st C I Post (mkRid KUser k) (rnum m).
Proof.
  intros Hk Hf He W Hfrom U K Hm Hu. pose proof (entry_neat lay Hneat i e He) as Hn. destruct (neat_facts _ Hn) as (P1 & _ & P3).
  destruct Hfrom as [(E & ->)|(l0 & a & x & E1 & E2 & _ & _ & E3)].
  { assert (Ho : list_is_open (e_read e) = false) by (rewrite E; exact P3).
    apply st_intro. unfold nodes. cbn [r_kind r_no]. rewrite Hk. cbn [user_prog]. rewrite Hf. unfold after_prog, if_pack.
    apply stp_read with (v := rbool false); [intros s Hs; now rewrite (I_input s Hs)|]. cbn [truthy rbool Z.eqb negb].
    eapply stp_ref; [exact W|]. cbn [as_ranges]. rewrite Ho. eapply stp_ref; [exact U|].
    apply stp_lift; [|intros; exact Logic.I]. cbn [as_ranges rbind]. now rewrite (max_stop_largest _ m P3 Hm). }
  destruct Hu as [E|Hu]; [rewrite E1, E2 in E; apply app_inv_head in E; discriminate|].
  destruct (neat_shape _ _ _ Hn E2) as (D1 & D2). rewrite E2 in P1, Hm, Hu.
  pose proof (last_largest _ _ _ P1 E3 _ Hm) as ->. destruct (last_offset _ _ _ P1 E3 D1 D2) as (t & T1 & T2).
  apply st_intro. unfold nodes. cbn [r_kind r_no]. rewrite Hk. cbn [user_prog]. rewrite Hf. unfold after_prog, if_pack.
  apply stp_read with (v := rbool false); [intros s Hs; now rewrite (I_input s Hs)|]. cbn [truthy rbool Z.eqb negb].
  eapply stp_ref; [exact W|]. rewrite E1. cbn [as_ranges]. rewrite open_last. eapply stp_ref; [exact K|].
  apply stp_lift; [|intros; exact Logic.I]. cbn [as_pair rbind snd]. rewrite T1. cbn [rbind]. rewrite Hu. rewrite T2. reflexivity.
Qed.

Definition entry_read i f e : Prop := exists from, reads_at e (8 * input_length v) from
  /\ st C I Post (f_where_unpack f) (RRanges (e_read e)) /\ st C I Post (mkRid KUnpackPos i) (RRanges from)
  /\ st C I Post (mkRid KUnpack i) (RPair (e_value e) (e_used e)) /\ st C I Post (mkRid KUnpackValue i) (RVal (e_value e)).
Lemma unpack_known_from (P : lfact -> Prop) x : (forall m, ~ P (FTotal m)) -> known lay P x ->
  (forall i f e, (exists y, P y /\ match y with FValue j _ | FEnd j _ => j = i | _ => False end) ->
     nth_error (k_fields C) i = Some f -> nth_error lay i = Some (Some e) -> entry_read i f e) -> fact_st C I Post x.
Proof.
  intros Pt (Hp & K) H. destruct x as [i x|i m|m]; cbn [fact_st]; [| |exfalso; eapply Pt; exact Hp].
  - destruct K as (e & He & ->). destruct (entry_read_as i e He) as (f & Hf & _).
    apply (st_field_unpack C I Post i f Hf (unpack_other i) v I_input).
    destruct (H i f e) as (from & _ & _ & _ & _ & G); [eexists; split; [exact Hp|reflexivity]|exact Hf|exact He|exact G].
  - destruct K as (e & He & Hm & Hu). destruct (entry_read_as i e He) as (f & Hf & _). intros k0 Hk0.
    destruct (H i f e) as (from & Fr & W & U & Uk & _); [eexists; split; [exact Hp|reflexivity]|exact Hf|exact He|]. eapply unpack_end_st; eauto.
Qed.
Lemma unpack_ranked k : forall i f e, (urank i < k)%nat -> (forall x, (urank x < urank i)%nat -> ready x) -> ready i -> nth_error (k_fields C) i = Some f -> nth_error lay i = Some (Some e) -> entry_read i f e.
Proof.
  induction k as [|k IH]; intros i f e Hk Hx Hi Hf He; [lia|]. pose proof (Hlay i f Hf) as L. rewrite He in L.
  destruct L as (_ & _ & L & _).
  destruct (unpack_entry i f e) as (W & from & Fr & U & Uk); [|exact Hi|exact Hf|exact He|].
  - intros x Kx. apply (unpack_known_from _ x (fun m H => H) Kx). intros j g e' (y & Y1 & Y2) Hg He'.
    assert (Hj : (urank j < urank i)%nat) by (destruct y; cbn [read_before] in Y1; subst; lia).
    apply IH; [lia| |now apply Hx|exact Hg|exact He']. intros x' Hx'. apply Hx. lia.
  - exists from. split; [exact Fr|]. split; [exact W|]. split; [exact U|]. split; [exact Uk|].
    eapply (st_unpack_value C I Post i f Hf (unpack_other i) (e_value e) _ L Uk).
    intros s Hs s'. assert (Ev : e_value e = read_value i) by (unfold read_value, layout_value; now rewrite He).
    unfold s'. rewrite Ev. split; [eapply I_set; eauto|]. exact (attr_post_set C read_value i f s Hnames Hf).
Qed.
Lemma given_bounded b r x : (forall y, (urank y < b)%nat -> ready y) -> given C (known lay (read_before urank b)) r x -> st C I Post r x.
Proof.
  intros Hb. apply given_st; [|exact (unpack_post_given _)]. intros y Hy. apply (unpack_known_from _ y (fun m H => H) Hy).
  intros j g e' (z & Y1 & Y2) Hg He'. assert (Hj : (urank j < b)%nat) by (destruct z; cbn [read_before] in Y1; subst; lia).
  apply (unpack_ranked (S (urank j))); [lia| |now apply Hb|exact Hg|exact He']. intros q Hq. apply Hb. lia.
Qed.

Section AllReady.
Hypothesis All : forall x, ready x.
Lemma unpack_all i f e : nth_error (k_fields C) i = Some f -> nth_error lay i = Some (Some e) -> entry_read i f e.
Proof. apply (unpack_ranked (S (urank i))); auto. Qed.
Lemma unpack_value_st i e : nth_error lay i = Some (Some e) -> st C I Post (mkRid KUnpackValue i) (RVal (e_value e)).
Proof. intros He. destruct (entry_read_as i e He) as (f & Hf & _). destruct (unpack_all i f e Hf He) as (? & ?); tauto. Qed.
Lemma unpack_given r x : given C (known lay not_total) r x -> st C I Post r x.
Proof.
  apply given_st; [|exact (unpack_post_given _)]. intros y Hy. apply (unpack_known_from _ y (fun m H => H) Hy). intros; now apply unpack_all.
Qed.

Lemma unpack_ends_st : forall l (k : list Z -> bprog) w (Q : bst -> Prop),
  (forall i f, In (i, f) l -> nth_error (k_fields C) i = Some f) ->
  forall stops, Forall2 (fun p s => match nth_error lay (fst p) with
                              | Some (Some e) => exists u, e_used e = Some u /\ byte_offset (e_place e) u = Ok s
                              | _ => s = 0 end) l stops ->
  stp C I Post (k stops) w Q -> stp C I Post (unpack_ends l k) w Q.
Proof.
  induction l as [|[i f] l IH]; intros k w Q Hl stops F H; inversion F as [|? s ? stops' F1 F2]; subst; cbn [unpack_ends]; [exact H|].
  cbn [fst] in F1. pose proof (Hl i f (or_introl eq_refl)) as Hf. pose proof (Hlay i f Hf) as L.
  assert (G : stp C I Post (unpack_ends l (fun xs => k (s :: xs))) w Q) by (apply (IH (fun xs => k (s :: xs)) w Q (fun j g Hj => Hl j g (or_intror Hj)) stops' F2), H).
  destruct (nth_error lay i) as [[e|]|] eqn:He.
  2,3: destruct L as (c & L1 & L2); subst s; eapply stp_ref; [now apply unpack_given; exact L1|]; rewrite L2; exact G.
  destruct L as (_ & (c & L1 & L2) & _). eapply stp_ref; [apply unpack_given; exact L1|]. rewrite L2.
  destruct (unpack_all i f e Hf He) as (from & Fr & _ & U1 & U2 & _).
  eapply stp_ref; [exact U2|]. eapply stp_ref; [exact U1|]. destruct F1 as (u & F1 & F1').
  assert (F2' : byte_offset from u = Ok s).
  { destruct Fr as [(_ & ->)|(l0 & a & x & _ & E2 & -> & E3 & _)]; [exact F1'|]. rewrite E2 in F1'. exact (byte_offset_longer _ _ _ _ _ _ E3 F1'). }
  cbn [as_pair as_ranges rbind snd]. rewrite F1, F2'. exact G.
Qed.

Lemma max_of_all l : forall a m, (forall x, In x (a :: l) -> x <= m) -> In m (a :: l) -> fold_left Z.max l a = m.
Proof.
  induction l as [|b l IH]; intros a m H1 H2; cbn [fold_left].
  - destruct H2 as [->|[]]. reflexivity.
  - apply IH.
    + intros x [<-|Hx]; [|apply H1; now right; right]. pose proof (H1 a (or_introl eq_refl)). pose proof (H1 b (or_intror (or_introl eq_refl))). lia.
    + destruct H2 as [<-|[<-|H2]]; [left|left|now right].
      * pose proof (H1 b (or_intror (or_introl eq_refl))). lia.
      * pose proof (H1 a (or_introl eq_refl)). lia.
Qed.

Lemma all_stops l : forall off (stops : list Z), (forall k x, nth_error l k = Some x -> nth_error lay (off + k) = Some x) ->
  Forall2 (fun e s => exists u, e_used e = Some u /\ byte_offset (e_place e) u = Ok s)
    (flat_map (fun x => match x with Some e => [e] | None => [] end) l) stops ->
  exists stops', Forall2 (fun i s => match nth_error lay i with
                              | Some (Some e) => exists u, e_used e = Some u /\ byte_offset (e_place e) u = Ok s
                              | _ => s = 0 end) (seq off (List.length l)) stops'
     /\ (forall s, In s stops' -> In s stops \/ s = 0) /\ (forall s, In s stops -> In s stops') /\ (stops = [] -> l <> [] -> In 0 stops').
Proof.
  induction l as [|x l IH]; intros off stops Hn F; cbn [flat_map List.length seq] in *.
  - exists []. inversion F; subst. split; [constructor|]. split; [intros s []|]. split; [intros s []|]. congruence.
  - pose proof (Hn 0%nat x eq_refl) as H0. rewrite Nat.add_0_r in H0.
    assert (Hn' : forall k y, nth_error l k = Some y -> nth_error lay (S off + k) = Some y).
    { intros k y Hk. replace (S off + k)%nat with (off + S k)%nat by lia. apply Hn. exact Hk. }
    destruct x as [e|]; cbn [app] in F.
    + inversion F as [|? s ? stops0 F1 F2]; subst. destruct (IH (S off) stops0 Hn' F2) as (stops' & G1 & G2 & G3 & G4).
      exists (s :: stops'). split; [constructor; [now rewrite H0|exact G1]|]. split; [|split].
      * intros q [<-|Hq]; [left; now left|]. destruct (G2 q Hq); [left; now right|now right].
      * intros q [<-|Hq]; [now left|right; auto].
      * discriminate.
    + destruct (IH (S off) stops Hn' F) as (stops' & G1 & G2 & G3 & G4). exists (0 :: stops').
      split; [constructor; [now rewrite H0|exact G1]|]. split; [|split].
      * intros q [<-|Hq]; [now right|auto].
      * intros q Hq. right. auto.
      * intros _ _. now left.
Qed.

Lemma unpack_total : st C I Post (mkRid KTotal 0) (rnum n).
Proof.
  unfold read_size in Hsize. destruct (k_size C) as [k|] eqn:Ek.
  - subst k. apply st_total_sized; [exact Ek|]. intros s0. apply attr_post_other. discriminate.
  - destruct Hsize as (S0 & stops & S1 & S2 & S3).
    destruct (all_stops lay 0 stops (fun k x H => H) S1) as (stops' & G1 & G2 & G3 & G4).
    apply st_intro. cbn [nodes r_kind]. unfold total_prog. rewrite Ek. cbn [rsize].
    apply stp_read with (v := RVal VNone); [reflexivity|]. unfold if_pack.
    apply stp_read with (v := rbool false); [intros s Hs; apply I_input in Hs; now rewrite Hs|]. cbn [truthy rbool Z.eqb negb].
    apply (unpack_ends_st (numbered C) _ _ _ (fun i f H => proj1 (numbered_in C i f) H) stops').
    + rewrite Hlen in G1. clear - G1. unfold numbered. revert G1. generalize 0%nat. revert stops'.
      induction (k_fields C) as [|f l IH]; intros stops' off G; cbn [List.length seq combine] in *; [inversion G; constructor|].
      inversion G; subst. constructor; [assumption|]. now apply IH.
    + assert (B : forall x, In x stops' -> x <= n).
      { intros x Hx. destruct (G2 x Hx) as [Hx'|Hx'].
        - apply (proj1 (Forall_forall _ _) S2 x Hx').
        - destruct S3 as [S3|S3]; [|lia]. pose proof (proj1 (Forall_forall _ _) S2 n S3). cbn beta in *. lia. }
      assert (M : In n stops').
      { destruct S3 as [S3|S3]; [auto|]. destruct stops as [|s0 l0]; [rewrite S3; auto|].
        pose proof (proj1 (Forall_forall _ _) S2 s0 (or_introl eq_refl)). cbn beta in *. apply G3. left. lia. }
      destruct stops' as [|a l]; [destruct M|]. rewrite (max_of_all l a n B M). apply stp_ret. intros s _. apply attr_post_other. discriminate.
Qed.

End AllReady.

(** What the field whose turn it is needs. *)
Lemma left_out_unpacks i f : nth_error (k_fields C) i = Some f -> layout_value lay i = VNone ->
  forall s, I s -> let s' := mkBst (set_attr (s_obj s) (f_name f) VNone) (s_input s) in
  I s' /\ Post (mkRid KUnpackValue i) s' /\ forall r, Post r s -> Post r s'.
Proof.
  intros Hf Hv s Hs s'. assert (Ev : VNone = read_value i) by (symmetry; exact Hv). unfold s'. rewrite Ev.
  split; [eapply I_set; eauto|]. exact (attr_post_set C read_value i f s Hnames Hf).
Qed.
Lemma all_or_first (k len : nat) : (forall x, (k <= x < len)%nat -> sees x = []) \/ exists i, (k <= i < len)%nat /\ sees i <> [] /\ forall x, (k <= x < i)%nat -> sees x = [].
Proof.
  induction len as [|len [IH|(i & I1 & I2 & I3)]].
  - left. intros x Hx. lia.
  - destruct (sees len) eqn:E.
    + left. intros x Hx. destruct (Nat.eq_dec x len) as [->|Hne]; [exact E|]. apply IH. lia.
    + destruct (Nat.le_gt_cases k len) as [Hk|Hk].
      * right. exists len. split; [lia|]. split; [congruence|]. intros x Hx. apply IH. lia.
      * left. intros x Hx. lia.
  - right. exists i. split; [lia|]. auto.
Qed.
Lemma turn_unpacks f : nth_error (k_fields C) ph = Some f ->
  (forall x, nth_error (k_fields C) x = None -> sees x = []) -> field_unpacks C I Post ph f.
Proof.
  intros Hf Hout'.
  assert (Hsmall : forall x, (x < ph)%nat -> ready x).
  { intros x Hx. destruct (nth_error (k_fields C) x) as [g|] eqn:Eg.
    - destruct (Hturn x g Eg) as [E|(E & _)]; unfold ready; [rewrite E; constructor|]. eapply Forall_impl; [|exact E]. intros j Hj. cbn beta in Hj. lia.
    - unfold ready. rewrite (Hout' x Eg). constructor. }
  pose proof (Hlay ph f Hf) as L. destruct (all_or_first ph (List.length (k_fields C))) as [A|(i & J1 & J2 & J3)].
  - assert (All : forall x, ready x).
    { intros x. destruct (Nat.lt_ge_cases x ph) as [Hx|Hx]; [auto|]. unfold ready.
      destruct (Nat.lt_ge_cases x (List.length (k_fields C))) as [Hx2|Hx2]; [rewrite A by lia; constructor|].
      rewrite Hout'; [constructor|]. apply nth_error_None. lia. }
    destruct (nth_error lay ph) as [[e|]|] eqn:He.
    2,3: destruct L as (c & L1 & L2); exists c; (split; [now apply unpack_given|]); rewrite L2; apply left_out_unpacks; auto;
      unfold layout_value; now rewrite He.
    destruct L as (_ & (c & L1 & L2) & _ & L3 & _). exists c. split; [now apply unpack_given|]. rewrite L2.
    split; [|eexists; eapply unpack_value_st; eassumption].
    eapply Forall_impl; [|exact L3]. intros j (e' & He'). eexists. eapply unpack_value_st; eassumption.
  - destruct (nth_error (k_fields C) i) as [fi|] eqn:Efi; [|apply nth_error_None in Efi; lia].
    destruct (Hturn i fi Efi) as [E|(T1 & T2)]; [congruence|].
    assert (Hrank : forall y, (urank y < urank i)%nat -> ready y).
    { intros y Hy. destruct (Nat.lt_ge_cases y ph) as [Hx|Hx]; [auto|]. unfold ready. destruct (sees y) eqn:Ey; [constructor|]. exfalso.
      destruct (nth_error (k_fields C) y) as [fy|] eqn:Efy; [|rewrite (Hout' y Efy) in Ey; discriminate].
      destruct (Nat.lt_ge_cases y i) as [Hyi|Hyi]; [rewrite J3 in Ey by lia; discriminate|].
      destruct (Nat.eq_dec y i) as [->|Hne]; [lia|]. destruct (Hturn y fy Efy) as [E|(_ & T3)]; [congruence|].
      destruct (T3 i fi ltac:(lia) Efi) as (T4 & _). specialize (T4 ltac:(lia)). lia. }
    destruct (T2 ph f ltac:(lia) Hf) as (R1 & (c & R2 & R3) & R4).
    exists c. split; [eapply given_bounded; eauto|]. rewrite R3. destruct (nth_error lay ph) as [[e|]|] eqn:He.
    2,3: apply left_out_unpacks; auto; unfold layout_value; now rewrite He.
    assert (Rp : ready ph).
    { destruct (Nat.eq_dec ph i) as [Eq|Hne]; [|apply Hrank, R1; lia]. unfold ready. rewrite Eq. exact T1. }
    destruct L as (_ & _ & _ & L3 & _). split.
    + apply Forall_forall. intros j Hj. destruct (proj1 (Forall_forall _ _) L3 j Hj) as (e' & He'). destruct (entry_read_as j e' He') as (g & Hg & _).
      pose proof (proj1 (Forall_forall _ _) R4 j Hj) as Hr. cbn beta in Hr. eexists.
      destruct (unpack_ranked (S (urank j)) j g e') as (from & _ & _ & _ & _ & G); [lia| |now apply Hrank|exact Hg|exact He'|exact G].
      intros x Hx. apply Hrank. lia.
    + eexists. destruct (unpack_ranked (S (urank ph)) ph f e) as (from & _ & _ & _ & _ & G); [lia| |exact Rp|exact Hf|exact He|exact G].
      intros x Hx. apply Hrank. destruct (Nat.eq_dec ph i) as [Eq|Hne]; [rewrite Eq in Hx; exact Hx|]. specialize (R1 ltac:(lia)). lia.
Qed.
End Unpack.

Lemma layout_unpack o2 b : has_attrs extra o2 ->
  (forall x, nth_error (k_fields C) x = None -> sees x = []) ->
  input_buffer b = Ok v ->
  exists o', buffer_unpack C b o2 = (Ok n, o') /\ holds_layout o' (k_fields C) lay /\ only_fields_changed C o2 o'.
Proof.
  intros Ho2 Hs V1.
  destruct (buffer_unpack_phased C (unpack_inv o2) (attr_post C read_value) b v o2 n Hok V1) as (s & E & F).
  - split; [reflexivity|]. split; [split; auto|]. intros; lia.
  - intros k f Hf. now apply turn_unpacks.
  - intros k f s Hf. unfold unpack_inv. split.
    + intros (A & B & D). split; [split; [exact A|split; [exact B|intros j g Hj; apply D; lia]]|].
      intros g Hg. cbn [r_no] in *. apply D; [lia|exact Hg].
    + intros ((A & B & D) & P). split; [exact A|]. split; [exact B|]. intros j g Hj Hg.
      destruct (Nat.eq_dec j k) as [->|Hne]; [exact (P g Hg)|]. apply D; [lia|exact Hg].
  - apply (unpack_total o2 Ho2). intros x. unfold ready.
    destruct (nth_error (k_fields C) x) as [g|] eqn:Eg; [|rewrite (Hs x Eg); constructor].
    destruct (Hturn x g Eg) as [Ex|(Ex & _)]; [rewrite Ex; constructor|]. eapply Forall_impl; [|exact Ex]. intros j Hj. cbn beta in Hj.
    assert (nth_error (k_fields C) x <> None) as X by congruence. apply nth_error_Some in X. lia.
  - exists (s_obj s). split; [exact E|]. destruct F as (F1 & F2 & F3). split; [|exact F2]. unfold holds_layout. apply Forall2_nth_iff. split; [congruence|].
    intros i f x Hf Hx. rewrite (F3 i f); [|apply nth_error_Some; congruence|exact Hf]. unfold read_value, layout_value. rewrite Hx. destruct x; reflexivity.
Qed.
End Reading.

(** ** Round trips *)
Lemma input_buffer_length b v : buf_ok b -> input_buffer b = Ok v -> input_length v = (zlen (buf_bits b) + 7) / 8.
Proof.
  intros K H. unfold input_length. rewrite buf_bits_len by exact K. destruct b as [l|inner s e]; cbn [input_buffer] in H.
  - unfold view_of, mk_view in H. cbn [blen blength] in *. pose proof (zlen_nonneg l).
    destruct (passert (0 <=? 0)), (passert (8 * zlen l <=? 8 * zlen l)), (passert (0 <=? 8 * zlen l)); try discriminate.
    inversion H; subst. cbn [blen]. unfold cdiv8. rewrite Z.sub_0_r. reflexivity.
  - inversion H; subst. reflexivity.
Qed.

Lemma sized_length k bits : 0 <= match k with Some x => x | None => 0 end ->
  zlen (sized k (bytes_of_bits bits)) = (Z.max (zlen bits) (match k with Some x => x | None => 0 end) + 7) / 8.
Proof.
  intros Hk. destruct (bytes_of_bits_spec bits) as (_ & S & _). pose proof (zlen_nonneg bits). unfold cdiv8 in S. unfold sized.
  destruct k as [k|]; [|rewrite S; f_equal; lia]. destruct (k =? 0) eqn:E; [rewrite S; f_equal; lia|].
  rewrite zlen_app, zlen_repeat, S. lia.
Qed.

Lemma sized_ok k bits : bytes_ok (sized k (bytes_of_bits bits)).
Proof.
  destruct (bytes_of_bits_spec bits) as (B & _). unfold sized. destruct k as [k|]; [|exact B]. destruct (k =? 0); [exact B|].
  apply Forall_app. split; [exact B|]. apply Forall_forall. intros x Hx. apply repeat_spec in Hx. subst. unfold is_byte. lia.
Qed.

Theorem layout_packs C lay o : cls_ok C -> class_packs C lay o -> apart (places lay) -> within_size C lay -> NoDup (map f_name (k_fields C)) ->
  exists bytes o', buffer_pack C o = (Ok bytes, o') /\ bytes_ok bytes
    /\ (exists m, largest_stop (List.concat (places lay)) m
        /\ zlen bytes = (Z.max m (match k_size C with Some k => k | None => 0 end) + 7) / 8)
    /\ same_but_assigned C o o'
    /\ (forall i f e, nth_error (k_fields C) i = Some f -> nth_error lay i = Some (Some e) -> Marshal.lookup o' (f_name f) = Some (e_value e))
    /\ forall i e tail, nth_error lay i = Some (Some e) -> flat_map (range_bits (bits_of_bytes bytes ++ tail)) (e_place e) = packed_bits e.
Proof.
  intros Hok (Hlen & vrank & qrank & Hlay) Hapart Hsize Hnames.
  destruct (layout_pack C lay o vrank qrank Hok Hlen Hlay Hapart Hsize Hnames) as (bits & o' & K1 & K2 & K3 & K4 & K5).
  eexists. exists o'. split; [exact K1|]. split; [apply sized_ok|]. split.
  { exists (zlen bits). split.
    - rewrite <- (layout_ranges C lay Hlen). apply K3.
    - apply sized_length. unfold within_size in Hsize. destruct (k_size C); lia. }
  split; [exact K4|]. split; [exact K5|]. intros i e tail He. destruct (sized_prefix (k_size C) bits) as (gap & G). rewrite G, <- app_assoc.
  apply (read_back _ bits (e_buf e) (e_place e) _ K2 K3).
  - apply disjoint_nodup; rewrite (layout_ranges C lay Hlen); apply Hapart.
  - apply in_map_iff. exists i. split; [unfold layout_part; now rewrite He|]. apply in_seq. split; [lia|].
    assert (nth_error lay i <> None) as N by congruence. apply nth_error_Some in N. rewrite Hlen in N. exact N.
Qed.

Lemma input_buffer_same b v : buf_ok b -> input_buffer b = Ok v -> buf_bits v = buf_bits b.
Proof.
  intros K H. destruct b as [l|inner s e]; cbn [input_buffer] in H; [|congruence].
  destruct (view_of_spec (BArr l) K) as (w & V1 & _ & _ & V4). rewrite V1 in H. injection H as <-. rewrite V4. cbn [buf_bits].
  unfold pad_to_byte. rewrite bits_of_bytes_length. replace ((- (8 * zlen l)) mod 8) with 0 by lia. apply app_nil_r.
Qed.
Theorem layout_reads C lay extra n b o2 : cls_ok C -> buf_ok b -> class_reads C lay extra (buf_bits b) -> Forall neat (places lay) -> read_size C lay n ->
  NoDup (map f_name (k_fields C)) -> has_attrs extra o2 ->
  exists o', buffer_unpack C b o2 = (Ok n, o') /\ holds_layout o' (k_fields C) lay /\ only_fields_changed C o2 o'.
Proof.
  intros Hok Kb (Hlen & Hextra & urank & sees0 & Hlay0) Hneat Hsize Hnames Ho2.
  set (sees := fun i => match nth_error (k_fields C) i with Some _ => sees0 i | None => [] end).
  assert (Hsees : forall i f, nth_error (k_fields C) i = Some f -> sees i = sees0 i) by (intros i f Hf; unfold sees; now rewrite Hf).
  destruct (input_buffer_spec b Kb) as (v & V1 & V2 & V3 & _). pose proof (input_buffer_same b v Kb V1) as V4.
  apply (layout_unpack C lay n urank extra sees v Hok Hlen); auto.
  - intros i f Hf. rewrite (Hsees i f Hf), V4, (input_buffer_length b v Kb V1). apply (Hlay0 i f Hf).
  - intros i f Hf. rewrite (Hsees i f Hf). apply (Hlay0 i f Hf).
  - intros x Hx. unfold sees. now rewrite Hx.
Qed.

Lemma reads_at_closed e n from : reads_at e n from -> neat (e_place e) -> Forall closed from.
Proof.
  intros [(_ & ->)|(l0 & a & x & _ & E2 & -> & E3 & _)] (N & _); [exact N|]. rewrite E2 in N. pose proof (last_bounds _ _ _ N) as (B1 & B2).
  apply Forall_app in N. apply Forall_app. split; [apply N|]. constructor; [|constructor]. split; [|discriminate]. split; cbn [r_start r_stop]; lia.
Qed.
Lemma ranges_bits_length bits l : Forall closed l -> zlen (flat_map (range_bits bits) l) <= zlen (all_positions l).
Proof.
  induction 1 as [|r l Hr _ IH]; [reflexivity|]. unfold all_positions in *. cbn [flat_map]. rewrite !zlen_app.
  enough (zlen (range_bits bits r) <= zlen (positions r)) by lia. rewrite zlen_positions by exact Hr.
  destruct r as [s [e|]]; [|destruct Hr as (_ & H); now elim H]. destruct Hr as ((H1 & H2) & _). cbn [r_start r_stop] in *.
  unfold range_bits, slice_bits, py_slice, rlen. cbn [r_start r_stop]. cbv zeta. unfold zlen at 1. rewrite firstn_length.
  pose proof (zlen_nonneg bits). unfold py_clamp. destruct (s <? 0) eqn:?, (e <? 0) eqn:?; lia.
Qed.
Lemma reads_at_prefix e n from bits : reads_at e n from -> neat (e_place e) -> exists more,
  flat_map (range_bits bits) from = flat_map (range_bits bits) (e_place e) ++ more /\ (from = e_place e -> more = []).
Proof.
  intros [(_ & ->)|(l0 & a & x & _ & E2 & -> & E3 & _)] (N & _).
  - exists []. now rewrite app_nil_r.
  - rewrite E2 in *. rewrite !flat_map_app. cbn [flat_map]. rewrite !app_nil_r.
    destruct (range_bits_longer bits a x n (last_bounds _ _ _ N) E3) as (more & M1 & M2).
    exists more. split; [rewrite M1; now rewrite app_assoc|]. intros Eq. apply app_inv_head in Eq. injection Eq as Eq. auto.
Qed.

Theorem layout_roundtrip_within C lay back o extra wide n : cls_ok C -> class_layout_within C lay back o extra wide -> apart (places lay) ->
  within_size C lay -> read_size C back n -> NoDup (map f_name (k_fields C)) ->
  exists bytes o', buffer_pack C o = (Ok bytes, o') /\ bytes_ok bytes
    /\ (exists m, largest_stop (List.concat (places lay)) m
        /\ zlen bytes = (Z.max m (match k_size C with Some k => k | None => 0 end) + 7) / 8)
    /\ same_but_assigned C o o'
    /\ (forall i f e, nth_error (k_fields C) i = Some f -> nth_error lay i = Some (Some e) -> Marshal.lookup o' (f_name f) = Some (e_value e))
    /\ forall b tail o2, buf_ok b -> buf_bits b = bits_of_bytes bytes ++ tail ->
       input_fits back wide (8 * ((zlen (buf_bits b) + 7) / 8)) -> has_attrs extra o2 ->
       exists o'', buffer_unpack C b o2 = (Ok n, o'') /\ holds_layout o'' (k_fields C) back /\ only_fields_changed C o2 o''.
Proof.
  intros Hok (Hp & Hlen & Hextra & urank & sees & H) Hapart Hsize Hread Hnames.
  destruct (layout_packs C lay o Hok Hp Hapart Hsize Hnames) as (bytes & o' & K1 & K2 & K3 & K4 & K5 & K6).
  exists bytes, o'. split; [exact K1|]. split; [exact K2|]. split; [exact K3|]. split; [exact K4|]. split; [exact K5|].
  assert (Hpair : forall i e', nth_error back i = Some (Some e') -> exists e f, nth_error lay i = Some (Some e) /\ nth_error (k_fields C) i = Some f
            /\ read_back_as C back urank extra (sees i) (wide i) i f e e').
  { intros i e' He'. destruct (nth_error (k_fields C) i) as [f|] eqn:Hf.
    - destruct (H i f Hf) as (_ & H2). rewrite He' in H2. destruct (nth_error lay i) as [[e|]|]; [|destruct H2|destruct H2]. eauto.
    - exfalso. apply nth_error_None in Hf. assert (nth_error back i <> None) as N by congruence. apply nth_error_Some in N. lia. }
  assert (Hneat : Forall neat (places back)).
  { apply Forall_forall. intros r Hr. unfold places in Hr. apply in_flat_map in Hr. destruct Hr as ([e'|] & Hin & Hr); [|destruct Hr]. destruct Hr as [<-|[]].
    apply In_nth_error in Hin. destruct Hin as (i & Hi). destruct (Hpair i e' Hi) as (e & f & He & _ & (-> & _)).
    exact (entry_neat lay (apart_neat lay Hapart) i e He). }
  intros b tail o2 Kb Bb Hfit Ho2. apply (layout_reads C back extra n b o2); auto.
  split; [exact Hlen|]. split; [exact Hextra|]. exists urank, sees. intros i f Hf. destruct (H i f Hf) as (H1 & H2). split; [exact H1|].
  destruct (nth_error lay i) as [[e|]|] eqn:He, (nth_error back i) as [[e'|]|] eqn:He'; try (destruct H2; fail); [|exact H2].
  destruct H2 as (R0 & R1 & R2 & R3 & R4 & uargs & R5 & R6). split; [exact R1|]. split; [exact R2|]. split; [exact R3|]. split; [exact R4|].
  destruct (Hfit i e' He') as (from & F1 & F2). exists uargs, from. split; [exact R5|]. split; [exact F1|].
  intros a b' Ha Kb' Vb' Hb'. destruct (reads_at_prefix e' _ from (buf_bits b) F1 (entry_neat back Hneat i e' He')) as (more & M1 & M2).
  apply (R6 _ from more a b' F1 M2 F2 Ha Kb' Vb').
  - rewrite Hb', M1, R0, Bb, (K6 i e tail He). reflexivity.
  - rewrite Hb'. apply ranges_bits_length. exact (reads_at_closed _ _ _ F1 (entry_neat back Hneat i e' He')).
Qed.

(** A layout whose fields leave nothing of the input, and whose unpackers look at fields only. *)
Lemma class_layout_narrow C lay o : class_layout_seeing C lay o -> class_layout_within C lay lay o [] (fun _ => false).
Proof.
  intros (Hlen & vrank & qrank & urank & sees & H). split; [|split; [exact Hlen|split; [constructor|]]].
  - split; [exact Hlen|]. exists vrank, qrank. intros i f Hf. destruct (H i f Hf) as (_ & H2). destruct (nth_error lay i) as [[e|]|]; [|apply H2|apply H2].
    destruct H2 as (L1 & L2 & L3 & L4 & L5 & L6 & L7 & L8 & L9 & pargs & uargs & A1 & A2 & A3 & A4 & A5 & A6).
    split; [exact L1|]. split; [exact L2|]. split; [exact L3|]. split; [exact L5|]. split; [exact L7|]. exists pargs. auto.
  - exists urank, sees. intros i f Hf. destruct (H i f Hf) as (H1 & H2). split; [exact H1|].
    destruct (nth_error lay i) as [[e|]|] eqn:He; [|apply H2|apply nth_error_None in He; assert (nth_error (k_fields C) i <> None) as N by congruence;
      apply nth_error_Some in N; lia].
    destruct H2 as (L1 & L2 & L3 & L4 & L5 & L6 & L7 & L8 & L9 & pargs & uargs & A1 & A2 & A3 & A4 & A5 & A6).
    split; [reflexivity|]. split; [now constructor|]. split; [exact L6|]. split; [exact L8|]. split; [exact L9|]. exists uargs. split.
    { clear - A2. induction A2 as [|a x l xs Ha F IH]; constructor; auto. destruct a; [exact Ha|now constructor]. }
    intros m from rest a b' _ Hrest Hw (Ha & _) Kb Vb Hbits _. specialize (Hw eq_refl). subst from. rewrite (Hrest eq_refl), app_nil_r in Hbits. now apply A6.
Qed.
Lemma input_fits_narrow lay n : (forall i e, nth_error lay i = Some (Some e) -> open_until (e_read e) (e_place e) (fun _ _ => n)) -> input_fits lay (fun _ => false) n.
Proof.
  intros H i e He. exists (e_place e). split; [|reflexivity]. destruct (H i e He) as [E|(l0 & a & E1 & E2 & E3)]; [left; auto|]. right.
  exists l0, a, n. rewrite E2. split; [exact E1|]. split; [reflexivity|]. split; [reflexivity|]. split; [lia|exact E3].
Qed.
Lemma layout_sizes C lay n : layout_size C lay n -> within_size C lay /\ read_size C lay n.
Proof. unfold layout_size, within_size, read_size. destruct (k_size C); [|tauto]. intros (-> & H). split; [exact H|reflexivity]. Qed.
Theorem layout_roundtrip_seeing C lay o n : cls_ok C -> class_layout_seeing C lay o -> apart (places lay) -> layout_size C lay n ->
  NoDup (map f_name (k_fields C)) ->
  exists bytes o', buffer_pack C o = (Ok bytes, o') /\ bytes_ok bytes
    /\ (exists m, largest_stop (List.concat (places lay)) m
        /\ zlen bytes = (Z.max m (match k_size C with Some k => k | None => 0 end) + 7) / 8)
    /\ same_but_assigned C o o'
    /\ (forall i f e, nth_error (k_fields C) i = Some f -> nth_error lay i = Some (Some e) -> Marshal.lookup o' (f_name f) = Some (e_value e))
    /\ forall b tail o2, buf_ok b -> buf_bits b = bits_of_bytes bytes ++ tail ->
       (forall i e, nth_error lay i = Some (Some e) -> open_until (e_read e) (e_place e) (fun _ _ => 8 * ((zlen (buf_bits b) + 7) / 8))) ->
       exists o'', buffer_unpack C b o2 = (Ok n, o'') /\ holds_layout o'' (k_fields C) lay /\ only_fields_changed C o2 o''.
Proof.
  intros Hok Hlay Hapart Hsize Hnames. destruct (layout_sizes _ _ _ Hsize) as (S1 & S2).
  destruct (layout_roundtrip_within C lay lay o [] (fun _ => false) n Hok (class_layout_narrow _ _ _ Hlay) Hapart S1 S2 Hnames)
    as (bytes & o' & K1 & K2 & K3 & K4 & K5 & K6).
  exists bytes, o'. repeat (split; [assumption|]). intros b tail o2 Kb Bb Hr. apply (K6 b tail o2 Kb Bb); [now apply input_fits_narrow|intros m x []].
Qed.

(** A layout whose unpackers look at nothing. *)
Lemma class_layout_sees C lay o : class_layout C lay o -> class_layout_seeing C lay o.
Proof.
  intros (Hlen & vrank & qrank & urank & H). split; [exact Hlen|]. exists vrank, qrank, urank, (fun _ => []). intros i f Hf. split; [now left|].
  specialize (H i f Hf). destruct (nth_error lay i) as [[e|]|]; auto.
  destruct H as (L1 & L2 & L3 & L4 & L5 & L6 & L7 & L8 & L9 & pargs & uargs & A1 & A2 & A3 & A4 & A5 & A6).
  split; [exact L1|]. split; [exact L2|]. split; [exact L3|]. split; [exact L4|]. split; [exact L5|]. split; [exact L6|]. split; [exact L7|].
  split; [exact L8|]. split; [exact L9|]. exists pargs, uargs. split; [exact A1|]. split; [exact A2|]. split; [exact A3|]. split; [exact A4|].
  split; [exact A5|]. intros a b' _. apply A6.
Qed.

Theorem layout_roundtrip C lay o n : cls_ok C -> class_layout C lay o -> apart (places lay) -> layout_size C lay n ->
  NoDup (map f_name (k_fields C)) ->
  exists bytes o', buffer_pack C o = (Ok bytes, o') /\ bytes_ok bytes
    /\ (exists m, largest_stop (List.concat (places lay)) m
        /\ zlen bytes = (Z.max m (match k_size C with Some k => k | None => 0 end) + 7) / 8)
    /\ same_but_assigned C o o'
    /\ (forall i f e, nth_error (k_fields C) i = Some f -> nth_error lay i = Some (Some e) -> Marshal.lookup o' (f_name f) = Some (e_value e))
    /\ forall b tail o2, buf_ok b -> buf_bits b = bits_of_bytes bytes ++ tail ->
       (forall i e, nth_error lay i = Some (Some e) -> open_until (e_read e) (e_place e) (fun _ _ => 8 * ((zlen (buf_bits b) + 7) / 8))) ->
       exists o'', buffer_unpack C b o2 = (Ok n, o'') /\ holds_layout o'' (k_fields C) lay /\ only_fields_changed C o2 o''.
Proof. intros Hok Hlay. apply layout_roundtrip_seeing; [exact Hok|now apply class_layout_sees]. Qed.

(** Proofs: calc_byte_size() of an object. *)
From Verif Require Import Base BaseProofs Marshal Range RangeRef RangeSpec RangeFacts IoBuffer IoSpec
  RefEngine RefSpec RefProofs RefSteady BufferModel BufferSpec SeeSpec WideSpec BufferFacts BufferPack BufferLayout BufferTrip BufferDep
  ObjectSize ObjectSizeSpec.
From Coq Require Import ZArith List Bool String Lia.
Import ListNotations.
Open Scope list_scope.
Open Scope Z_scope.

(** ** One more reference *)
Section More.
Variable C : cls.
Variable us : list uref.
Definition more : cls := mkCls (k_fields C) (k_users C ++ us) (k_size C).
Lemma more_user k u : nth_error (k_users C) k = Some u -> nth_error (k_users more) k = Some u.
Proof. intros H. cbn [more k_users]. rewrite nth_error_app1; [exact H|]. apply nth_error_Some. congruence. Qed.
Lemma more_node r v know : given_prog C know (nodes C r) v -> nodes more r = nodes C r.
Proof.
  destruct r as [k i]. destruct k; try reflexivity. unfold nodes. cbn [r_kind r_no]. destruct (nth_error (k_users C) i) as [u|] eqn:E.
  - intros _. rewrite (more_user _ _ E). destruct u; reflexivity.
  - intros H. inversion H.
Qed.
Lemma more_given know r v : given C know r v -> given more know r v.
Proof.
  intros H. induction H using given_mut with (P0 := fun p v _ => given_prog more know p v).
  - now apply given_field.
  - eapply given_attr; [apply more_user; eassumption|eassumption|assumption].
  - eapply given_after; [apply more_user; eassumption|assumption].
  - eapply given_total; [apply more_user; eassumption|eassumption|assumption].
  - eapply given_size_known; [apply more_user; eassumption|eassumption].
  - apply given_node. rewrite (more_node _ _ _ g). assumption.
  - constructor.
  - econstructor; eassumption.
Qed.
Lemma more_rid r : rid_in C r -> rid_in more r.
Proof.
  unfold rid_in, all_rids. cbn [more k_fields k_users]. intros [<-|H]; [now left|]. right. apply in_app_iff in H. apply in_app_iff.
  destruct H as [H|H]; [left|now right]. apply in_map_iff in H. destruct H as (k & <- & H). apply in_seq in H. apply in_map, in_seq. rewrite app_length. lia.
Qed.
Lemma more_arg a : arg_in C a -> arg_in more a.
Proof. destruct a; [trivial|apply more_rid]. Qed.
Lemma more_uref u : uref_in C u -> uref_in more u.
Proof.
  pose proof more_arg as A. pose proof more_rid as R.
  destruct u; cbn [uref_in]; try tauto; try (intros H; now (split; [|split] || split; try apply A; try apply R)); try (intros (H1 & H2); auto);
    try (intros H; eapply Forall_impl; [exact more_arg|exact H]); auto.
Qed.
Lemma more_ok : cls_ok C -> Forall (uref_in more) us -> cls_ok more.
Proof.
  intros (U & F) N. split.
  - apply Forall_app. split; [|exact N]. eapply Forall_impl; [exact more_uref|exact U].
  - cbn [more k_fields]. eapply Forall_impl; [|exact F]. intros f (H1 & H2 & H3 & H4 & H5 & H6 & H7 & H8).
    split; [now apply more_rid|]. split; [now apply more_rid|]. split; [now apply more_rid|]. split; [now apply more_rid|].
    split; [destruct (f_before f) as [[]|]; auto; now apply more_rid|]. split; [exact H6|].
    split; (eapply Forall_impl; [exact more_arg|eassumption]).
Qed.
Lemma more_places lay o : class_places C lay o -> class_places more lay o.
Proof.
  intros (L & vrank & qrank & H). split; [exact L|]. exists vrank, qrank. intros i f e Hf He.
  destruct (H i f e Hf He) as (H1 & H2 & H3 & H4 & pargs & H5 & H6). split; [now apply more_given|]. split; [exact H2|]. split; [exact H3|]. split.
  - unfold value_to_pack in *. destruct (f_before f) as [[g|x|r]|]; auto. now apply more_given.
  - exists pargs. split; [|exact H6]. clear - H5. induction H5 as [|a v l vs H1 H2 IH]; constructor; [|exact IH]. destruct a; [exact H1|now apply more_given].
Qed.
End More.

Lemma find_in n own : forall fs off, In n (map f_name (firstn own fs)) ->
  find_field n (firstn own (combine (seq off (List.length fs)) fs)) <> None.
Proof.
  induction own as [|own IH]; intros fs off H; [destruct H|]. destruct fs as [|f fs]; [destruct H|]. cbn [List.length seq combine firstn find_field map] in *.
  destruct (String.eqb_spec (f_name f) n) as [E|E]; [discriminate|]. destruct H as [H|H]; [congruence|]. now apply IH.
Qed.
Lemma context_users C own : own_references C own -> context_of_size C own = more C [own_total C own].
Proof.
  intros H. unfold context_of_size, more. f_equal. destruct H as [->|H]; [now rewrite Nat.eqb_refl|].
  destruct (Nat.eqb own (List.length (k_fields C))); [reflexivity|]. f_equal. rewrite <- (map_id (k_users C)) at 2. apply map_ext_in. intros u Hu.
  pose proof (proj1 (Forall_forall _ _) H u Hu) as Hn. cbn beta in Hn. destruct u; try reflexivity; cbn [in_own_context]; [destruct Hn|].
  pose proof (find_in n own (k_fields C) 0 Hn) as E. unfold numbered. destruct (find_field n _); [reflexivity|congruence].
Qed.

(** ** Classes of known size *)
Lemma context_user C own : nth_error (k_users (context_of_size C own)) (List.length (k_users C)) = Some (own_total C own).
Proof.
  cbn [context_of_size k_users]. rewrite nth_error_app2; [|destruct (Nat.eqb _ _); rewrite ?map_length; lia].
  replace (_ - _)%nat with 0%nat by (destruct (Nat.eqb _ _); rewrite ?map_length; lia). reflexivity.
Qed.
Lemma size_known C own n o : k_size C = Some n -> calc_byte_size C own o = (Ok n, o).
Proof.
  intros H. unfold calc_byte_size, dref, start_pack, fuel. cbn [w_ctx w_st].
  cbn [deref]. replace (nodes (context_of_size C own) (mkRid KUser (List.length (k_users C)))) with (PRet (rnum n) : bprog).
  - cbn. now rewrite num_bits_rnum.
  - unfold nodes. cbn [r_kind r_no]. rewrite context_user. unfold own_total. now rewrite H.
Qed.

(** ** Classes whose size depends on the object *)
Lemma size_given C own lay o m : cls_ok C -> (own <= List.length (k_fields C))%nat -> own_references C own -> k_size C = None ->
  NoDup (map f_name (k_fields C)) -> class_places C lay o -> Forall neat (places lay) -> Forall present (firstn own lay) ->
  largest_stop (List.concat (places (firstn own lay))) m ->
  exists o', calc_byte_size C own o = (Ok m, o') /\ same_but_assigned C o o'.
Proof.
  intros Hok Hown Hrefs Hsize Hnames Hplaces Hneat Hpresent Hm. unfold calc_byte_size. rewrite (context_users C own Hrefs).
  set (C' := more C [own_total C own]).
  assert (Hok' : cls_ok C').
  { apply more_ok; [exact Hok|]. constructor; [|constructor]. unfold own_total. rewrite Hsize. cbn [uref_in]. apply Forall_forall. intros a Ha.
    apply in_map_iff in Ha. destruct Ha as (i & <- & Hi). apply in_seq in Hi. cbn [arg_in]. apply more_rid. apply in_field; [reflexivity|]. unfold field_no. lia. }
  destruct (more_places C [own_total C own] lay o Hplaces) as (Hlen & vrank & qrank & Hlay).
  assert (Hlen' : List.length lay = List.length (k_fields C)) by exact Hlen.
  pose proof (pack_pos_st C' lay o vrank qrank Hlen Hlay Hneat Hnames) as Hpos.
  assert (Ht : st C' (pack_inv C' lay o) (pack_post C' lay) (mkRid KUser (List.length (k_users C))) (rnum m)).
  { apply st_intro. unfold nodes. cbn [r_kind r_no].
    replace (nth_error (k_users C') (List.length (k_users C))) with (Some (own_total C own))
      by (symmetry; cbn [C' more k_users]; rewrite nth_error_app2, Nat.sub_diag by lia; reflexivity).
    unfold own_total. rewrite Hsize. cbn [user_prog]. apply stp_ev_list with (vs := map RRanges (places (firstn own lay))).
    - assert (G : forall l k off, (k <= List.length l)%nat -> (forall i e, nth_error l i = Some (Some e) -> st C' (pack_inv C' lay o) (pack_post C' lay) (mkRid KPackPos (off + i)) (RRanges (e_place e))) ->
        Forall present (firstn k l) -> Forall2 (st_arg C' (pack_inv C' lay o) (pack_post C' lay)) (map (fun i => ARef (mkRid KPackPos i)) (seq off k)) (map RRanges (places (firstn k l)))).
      { induction l as [|x l IH]; intros k off Hk G P; destruct k as [|k]; try (constructor; fail); [cbn in Hk; lia|]. cbn [firstn] in P.
        inversion P as [|? ? (e & ->) P']; subst. cbn [firstn seq map places flat_map app]. constructor.
        - cbn [st_arg]. rewrite <- (Nat.add_0_r off). now apply (G 0%nat).
        - apply IH; [cbn in Hk; lia| |exact P']. intros i e' He'. replace (S off + i)%nat with (off + S i)%nat by lia. now apply G. }
      apply (G lay own 0%nat); [lia|exact Hpos|exact Hpresent].
    - apply stp_lift; [|intros; exact Logic.I]. unfold last_end. rewrite all_ranges. cbn [rbind]. rewrite (max_stop_largest _ m); [reflexivity| |exact Hm].
      apply closed_not_open. apply Forall_forall. intros r Hr. apply in_concat in Hr. destruct Hr as (q & Q1 & Q2).
      assert (Q : In q (places lay)).
      { unfold places in *. apply in_flat_map in Q1. destruct Q1 as (x & X1 & X2). apply in_flat_map. exists x. split; [|exact X2].
        rewrite <- (firstn_skipn own lay). apply in_app_iff. now left. }
      pose proof (proj1 (Forall_forall _ _) Hneat q Q) as (N & _). exact (proj1 (Forall_forall _ _) N r Q2). }
  assert (Hr : rid_in C' (mkRid KUser (List.length (k_users C)))).
  { unfold rid_in, all_rids. right. apply in_app_iff. left. apply in_map, in_seq. cbn [C' more k_users]. rewrite app_length. cbn. lia. }
  assert (Hw : steady_world C' (pack_inv C' lay o) (pack_post C' lay) (start_pack o)) by (apply steady_start; split; [reflexivity|]; intros x; now left).
  destruct (dref_steady C' _ _ _ _ _ Hok' Hr Ht Hw) as (w & E & W & _).
  rewrite E, num_bits_rnum. exists (s_obj (w_st w)). split; [reflexivity|]. exact (pack_same C' lay o _ (proj1 (proj2 W))).
Qed.

(** ** What pack returns *)
Lemma packs_places C lay o : class_packs C lay o -> class_places C lay o.
Proof.
  intros (L & vrank & qrank & H). split; [exact L|]. exists vrank, qrank. intros i f e Hf He. pose proof (H i f Hf) as P. rewrite He in P.
  destruct P as (P1 & P2 & P3 & _ & P4 & P5). split; [exact P1|]. split; [exact P2|]. split; [exact P3|]. split; [exact P4|exact P5].
Qed.
Lemma layout_class_packs C lay o : class_layout C lay o -> class_packs C lay o.
Proof.
  intros (L & vrank & qrank & urank & H). split; [exact L|]. exists vrank, qrank. intros i f Hf. specialize (H i f Hf).
  destruct (nth_error lay i) as [[e|]|]; [|exact (proj1 H)|exact (proj1 H)].
  destruct H as (H1 & H2 & H3 & _ & H4 & _ & H5 & _ & _ & pargs & uargs & H6 & _ & H7 & H8 & H9 & _).
  split; [exact H1|]. split; [exact H2|]. split; [exact H3|]. split; [exact H4|]. split; [exact H5|]. exists pargs. auto.
Qed.
Lemma sizes C own lay lay' o m : cls_ok C -> (own <= List.length (k_fields C))%nat -> own_references C own -> k_size C = None ->
  NoDup (map f_name (k_fields C)) -> class_packs C lay o -> apart (places lay) ->
  class_places C lay' o -> Forall neat (places lay') -> Forall present (firstn own lay') ->
  largest_stop (List.concat (places (firstn own lay'))) m ->
  exists bytes o1 o2 n, buffer_pack C o = (Ok bytes, o1) /\ largest_stop (List.concat (places lay)) n /\ zlen bytes = (n + 7) / 8
    /\ calc_byte_size C own o = (Ok m, o2).
Proof.
  intros Hok Hown Hrefs Hsize Hnames Hp Ha Hp' Hn Hpres Hm.
  destruct (size_given C own lay' o m Hok Hown Hrefs Hsize Hnames Hp' Hn Hpres Hm) as (o2 & E & _).
  assert (Hw : within_size C lay) by (unfold within_size; now rewrite Hsize).
  destruct (layout_packs C lay o Hok Hp Ha Hw Hnames) as (bytes & o1 & P1 & _ & (n & P2 & P3) & _).
  exists bytes, o1, o2, n. split; [exact P1|]. split; [exact P2|]. split; [|exact E]. rewrite P3, Hsize. f_equal. f_equal. destruct P2. lia.
Qed.
Lemma size_packed C lay o : cls_ok C -> k_size C = None -> NoDup (map f_name (k_fields C)) -> class_packs C lay o -> apart (places lay) -> Forall present lay ->
  exists bytes o1 o2 m, buffer_pack C o = (Ok bytes, o1) /\ calc_byte_size C (List.length (k_fields C)) o = (Ok m, o2)
    /\ largest_stop (List.concat (places lay)) m /\ zlen bytes = (m + 7) / 8
    /\ same_but_assigned C o o2.
Proof.
  intros Hok Hsize Hnames Hp Ha Hpres. pose proof (proj1 Hp) as Hlen.
  assert (Hw : within_size C lay) by (unfold within_size; now rewrite Hsize).
  destruct (layout_packs C lay o Hok Hp Ha Hw Hnames) as (bytes & o1 & P1 & _ & (n & P2 & P3) & _).
  assert (Ef : firstn (List.length (k_fields C)) lay = lay) by (rewrite <- Hlen; apply firstn_all).
  destruct (size_given C (List.length (k_fields C)) lay o n Hok (le_n _) (or_introl eq_refl) Hsize Hnames (packs_places _ _ _ Hp) (apart_neat lay Ha)) as (o2 & E & E2).
  - now rewrite Ef.
  - now rewrite Ef.
  - exists bytes, o1, o2, n. split; [exact P1|]. split; [exact E|]. split; [exact P2|]. split; [|exact E2]. rewrite P3, Hsize. f_equal. f_equal. destruct P2. lia.
Qed.

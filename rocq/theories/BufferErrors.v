(** Proofs: what Buffer.unpack does, and which exceptions leave pack and unpack. *)
From Verif Require Import Base BaseProofs Marshal Range RangeRef RangeSpec IoBuffer IoSpec IoProofs IoFacts IoOutput
  RefEngine RefSpec RefProofs RefStatic BufferModel BufferSpec BufferPlace BufferFacts BufferPack BufferTrip.
From Coq Require Import ZArith List Bool String Lia ZifyBool ZifyNat.
Import ListNotations.
Open Scope list_scope.
Open Scope Z_scope.
Ltac Zify.zify_post_hook ::= Z.div_mod_to_equations.

Section Errors.
Variable C : cls.
Notation evals := (eval rid_eqb (nodes C)).

Lemma wrap_err {A} (m : stM world A) w e w' : wrap m w = (Err e, w') -> e = InstructBufferError \/ no_exception e.
Proof.
  unfold wrap, no_exception. destruct (m w) as [[a|e0] w1]; intros H; inversion H; subst. destruct e0; cbn [wrapped]; auto.
Qed.

Lemma dref_err r w e w' : cls_ok C -> rid_in C r -> wok C w -> dref C r w = (Err e, w') ->
  fails C r (c_cache (w_ctx w)) (w_st w) e.
Proof.
  intros Hok Hr W H. destruct (dref_cases C _ _ _ _ H W) as (_ & _ & _ & [(D & _)|[E|E]]).
  - destruct W as (N & _). exfalso. exact (deref_ends C Hok r _ _ Hr N D).
  - left. eauto.
  - right. exact E.
Qed.

Lemma field_refs i f : cls_ok C -> In (i, f) (numbered C) -> rid_in C (f_pack_if f) /\ rid_in C (f_unpack_if f) /\ Forall (field_no C) (f_unpack_after f).
Proof.
  intros Hok Hin. apply numbered_in in Hin.
  pose proof (proj1 (Forall_forall _ _) (proj2 Hok) _ (nth_error_In _ _ Hin)) as (F1 & F2 & F3 & F4 & F5 & F6 & _). auto.
Qed.

(** ** Packing *)
Lemma pack_fields_err l : forall w e w', cls_ok C -> packers_ok C -> incl l (numbered C) -> wok C w -> out_ok (w_out w) ->
  sforeach l (fun p => pack_field C (fst p) (snd p)) w = (Err e, w') ->
  e = InstructBufferError \/ no_exception e
  \/ exists pre i f post ps m s, l = pre ++ (i, f) :: post /\ packing C pre (c_cache (w_ctx w)) (w_st w) ps m s /\ fails C (f_pack_if f) m s e.
Proof.
  induction l as [|[i f] l IH]; intros w e w' Hok Hp Hl W O H; cbn [sforeach fst snd] in H; [discriminate|].
  unfold sbind at 1 in H. destruct (pack_field C i f w) as [[[]|e1] w1] eqn:E1.
  - destruct (pack_field_ok C i f w w1 Hp W O E1) as (W1 & O1 & _ & p & _ & _ & K).
    destruct (IH w1 e w' Hok Hp (fun x Hx => Hl x (or_intror Hx)) W1 O1 H) as [G|[G|(pre & j & g & post & ps & m & s & G1 & G2 & G3)]]; auto.
    right. right. exists ((i, f) :: pre), j, g, post, (p :: ps), m, s. split; [now rewrite G1|]. auto.
  - inversion H; subst. unfold pack_field in E1. unfold sbind at 1 in E1. destruct (dref C (f_pack_if f) w) as [[c|e2] w2] eqn:E2.
    + destruct (truthy c); [|discriminate]. apply wrap_err in E1. tauto.
    + inversion E1; subst. right. right. exists [], i, f, l, [], (c_cache (w_ctx w)), (w_st w). split; [reflexivity|]. split; [constructor|].
      eapply dref_err; eauto. apply (field_refs i f Hok). apply Hl. now left.
Qed.

Lemma buffer_pack_err o e o' : cls_ok C -> packers_ok C -> buffer_pack C o = (Err e, o') ->
  e = InstructBufferError \/ no_exception e
  \/ (exists pre i f post ps m s, numbered C = pre ++ (i, f) :: post /\ packing C pre [] (mkBst o None) ps m s /\ fails C (f_pack_if f) m s e)
  \/ (e = AssertionError /\ exists ps m bits, packing C (numbered C) [] (mkBst o None) ps m (mkBst o' None)
        /\ Forall part_fits ps /\ output_of ps bits /\ too_long (k_size C) (bytes_of_bits bits)).
Proof.
  intros Hok Hp H. unfold buffer_pack in H.
  destruct (sforeach (numbered C) (fun p => pack_field C (fst p) (snd p)) (start_pack o)) as [[[]|e1] w] eqn:E.
  - destruct (pack_fields_ok C _ _ _ Hp (wok_new C _) out_ok_new E) as (W & O & N & ps & F & P & K).
    cbn [start_pack w_st w_ctx w_out new_ctx c_cache s_input] in *.
    apply pair_equal_spec in H. destruct H as (H1 & H2). subst o'.
    destruct O as (KO & _). unfold ba_ok in KO. rewrite buf_bytes_spec in H1 by exact KO. cbn [rbind] in H1. fold (ba_bits (w_out w)) in H1.
    destruct (fix_size_c C (bytes_of_bits (ba_bits (w_out w)))) as (S1 & S2).
    assert (D : too_long (k_size C) (bytes_of_bits (ba_bits (w_out w))) \/ ~ too_long (k_size C) (bytes_of_bits (ba_bits (w_out w)))).
    { unfold too_long. destruct (k_size C); [lia|tauto]. }
    destruct D as [T|T]; [|rewrite S1 in H1 by auto; discriminate]. rewrite S2 in H1 by auto. inversion H1; subst.
    right. right. right. split; [reflexivity|]. exists ps, (c_cache (w_ctx w)), (ba_bits (w_out w)).
    split; [destruct (w_st w) as [o1 i1]; cbn in *; subst; exact K|]. split; [exact F|].
    split; [apply output_of_placed; [exact F|]; rewrite new_baa_bits in P by constructor; exact P|]. exact T.
  - apply pair_equal_spec in H. destruct H as (H1 & H2). inversion H1; subst.
    destruct (pack_fields_err _ _ _ _ Hok Hp (incl_refl _) (wok_new C _) out_ok_new E) as [G|[G|G]]; auto.
Qed.

(** ** Unpacking *)
Lemma unpack_after_ok l : forall w w', wok C w ->
  sforeach l (fun j => do dref C (mkRid KUnpackValue j) ;; sret tt) w = (Ok tt, w') ->
  wok C w' /\ evals_all C (map (mkRid KUnpackValue) l) (c_cache (w_ctx w)) (w_st w) (c_cache (w_ctx w')) (w_st w').
Proof.
  induction l as [|j l IH]; intros w w' W H; cbn [sforeach map] in *.
  - inversion H; subst. split; [auto|constructor].
  - apply sbind_ok in H. destruct H as ([] & w1 & H1 & H). apply sbind_ok in H1. destruct H1 as (v & w2 & H2 & H1). inversion H1; subst.
    destruct (dref_cases C _ _ _ _ H2 W) as (W1 & _ & _ & E & _).
    destruct (IH w1 w' W1 H) as (W' & K). split; [auto|]. econstructor; eauto.
Qed.
Lemma evals_app l1 : forall l2 m s m1 s1 m' s', evals_all C l1 m s m1 s1 -> evals_all C l2 m1 s1 m' s' -> evals_all C (l1 ++ l2) m s m' s'.
Proof. intros l2 m s m1 s1 m' s' H. revert m' s'. induction H; intros; cbn [app]; [auto|]. econstructor; eauto. Qed.

Lemma unpack_field_ok i f w w' : wok C w -> unpack_field C i f w = (Ok tt, w') ->
  wok C w' /\ forall l m' s', unpacking C l (c_cache (w_ctx w')) (w_st w') m' s' ->
    unpacking C ((i, f) :: l) (c_cache (w_ctx w)) (w_st w) m' s'.
Proof.
  intros W H. unfold unpack_field in H. apply wrap_ok in H. apply sbind_ok in H. destruct H as (c & w1 & H1 & H).
  destruct (dref_cases C _ _ _ _ H1 W) as (W1 & _ & _ & E1 & _). destruct (truthy c) eqn:Tc.
  - apply sbind_ok in H. destruct H as ([] & w2 & H2 & H). apply sbind_ok in H. destruct H as (v & w3 & H3 & H). inversion H; subst.
    destruct (unpack_after_ok _ _ _ W1 H2) as (W2 & E2). destruct (dref_cases C _ _ _ _ H3 W2) as (W3 & _ & _ & E3 & _).
    split; [exact W3|]. intros l m' s' K. eapply unpacking_take; eauto. rewrite map_app. eapply evals_app; eauto.
    cbn [map]. econstructor; [eauto|constructor].
  - unfold w_setattr in H. inversion H; subst. cbn [w_ctx w_st]. split; [exact W1|]. intros l m' s' K. eapply unpacking_skip; eauto.
Qed.

Lemma unpack_fields_ok l : forall w w', wok C w ->
  sforeach l (fun p => unpack_field C (fst p) (snd p)) w = (Ok tt, w') ->
  wok C w' /\ unpacking C l (c_cache (w_ctx w)) (w_st w) (c_cache (w_ctx w')) (w_st w').
Proof.
  induction l as [|[i f] l IH]; intros w w' W H; cbn [sforeach fst snd] in H.
  - inversion H; subst. split; [auto|constructor].
  - apply sbind_ok in H. destruct H as ([] & w1 & H1 & H). destruct (unpack_field_ok _ _ _ _ W H1) as (W1 & K).
    destruct (IH w1 w' W1 H) as (W' & U). split; auto.
Qed.

Lemma buffer_unpack_ok b o n o' : buf_ok b -> buffer_unpack C b o = (Ok n, o') ->
  (forall k, k_size C = Some k -> n = k) /\ exists input m s m' s', input_buffer b = Ok input /\ unpacking C (numbered C) [] (mkBst o (Some input)) m s
    /\ evals (mkRid KTotal 0) m s (Ok (rnum n)) m' s' /\ o' = s_obj s'.
Proof.
  intros Kb H. unfold buffer_unpack in H. destruct (input_buffer_spec b Kb) as (v & V1 & _). rewrite V1 in H.
  destruct (sforeach (numbered C) (fun p => unpack_field C (fst p) (snd p)) (mkW new_ctx (mkBst o (Some v)) (new_baa []))) as [[[]|e] w] eqn:E;
    [|discriminate].
  destruct (unpack_fields_ok _ _ _ (wok_new C _) E) as (W & U). cbn [w_ctx w_st new_ctx c_cache] in U.
  destruct (dref C (mkRid KTotal 0) w) as [[x|e] w'] eqn:D; [|discriminate].
  destruct (dref_cases C _ _ _ _ D W) as (_ & _ & _ & E1 & K1). cbn [kind_ok r_kind] in K1. destruct K1 as (k & -> & Kk).
  rewrite num_bits_rnum in H. inversion H; subst. split; [auto|]. exists v, (c_cache (w_ctx w)), (w_st w), (c_cache (w_ctx w')), (w_st w'). auto.
Qed.

Lemma unpack_fields_err l : forall w e w', sforeach l (fun p => unpack_field C (fst p) (snd p)) w = (Err e, w') ->
  e = InstructBufferError \/ no_exception e.
Proof.
  induction l as [|[i f] l IH]; intros w e w' H; cbn [sforeach fst snd] in H; [discriminate|].
  unfold sbind at 1 in H. destruct (unpack_field C i f w) as [[[]|e1] w1] eqn:E1; [eauto|]. inversion H; subst.
  unfold unpack_field in E1. eapply wrap_err, E1.
Qed.

Lemma buffer_unpack_err b o e o' : cls_ok C -> buf_ok b -> buffer_unpack C b o = (Err e, o') ->
  e = InstructBufferError \/ no_exception e
  \/ exists input m s, input_buffer b = Ok input /\ unpacking C (numbered C) [] (mkBst o (Some input)) m s /\ fails C (mkRid KTotal 0) m s e.
Proof.
  intros Hok Kb H. unfold buffer_unpack in H. destruct (input_buffer_spec b Kb) as (v & V1 & _). rewrite V1 in H.
  destruct (sforeach (numbered C) (fun p => unpack_field C (fst p) (snd p)) (mkW new_ctx (mkBst o (Some v)) (new_baa []))) as [[[]|e1] w] eqn:E.
  - destruct (unpack_fields_ok _ _ _ (wok_new C _) E) as (W & U). cbn [w_ctx w_st new_ctx c_cache] in U.
    destruct (dref C (mkRid KTotal 0) w) as [[x|e1] w'] eqn:D.
    + destruct (dref_cases C _ _ _ _ D W) as (_ & _ & _ & E1 & K1). cbn [kind_ok r_kind] in K1. destruct K1 as (k & -> & _).
      rewrite num_bits_rnum in H. discriminate.
    + inversion H; subst. right. right. exists v, (c_cache (w_ctx w)), (w_st w). split; [exact V1|]. split; [exact U|].
      eapply dref_err; eauto. now left.
  - inversion H; subst. destruct (unpack_fields_err _ _ _ _ E); auto.
Qed.

End Errors.

(** ** Known sizes *)
Lemma packed_length C n o bytes o' : packers_ok C -> k_size C = Some n -> n <> 0 -> buffer_pack C o = (Ok bytes, o') ->
  zlen bytes = (n + 7) / 8.
Proof.
  intros Hp Hn N H. destruct (buffer_pack_ok C o bytes o' Hp H) as (ps & m & bits & _ & _ & _ & T & ->). rewrite Hn in *.
  unfold too_long, sized in *. replace (n =? 0) with false by lia. rewrite zlen_app, zlen_repeat. lia.
Qed.

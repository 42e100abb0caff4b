(** Proofs: what Buffer.pack and Buffer.unpack do, for every class. *)
From Verif Require Import Base BaseProofs Marshal Range RangeRef RangeSpec IoBuffer IoSpec IoProofs IoFacts IoOutput
  RefEngine RefSpec RefProofs RefStatic RefSteady BufferModel BufferSpec BufferPlace BufferFacts.
From Coq Require Import ZArith List Bool String Lia ZifyBool ZifyNat.
Import ListNotations.
Open Scope list_scope.
Open Scope Z_scope.
Ltac Zify.zify_post_hook ::= Z.div_mod_to_equations.

Section Pack.
Variable C : cls.
Notation evals := (eval rid_eqb (nodes C)).

Definition wok (w : world) : Prop := c_nodes (w_ctx w) = [] /\ typed rid_eqb (kind_ok C) (c_cache (w_ctx w)).

Lemma dref_cases r w x w' : dref C r w = (x, w') -> wok w ->
  wok w' /\ w_out w' = w_out w /\ s_input (w_st w') = s_input (w_st w)
  /\ match x with
     | Ok v => evals r (c_cache (w_ctx w)) (w_st w) (Ok v) (c_cache (w_ctx w')) (w_st w') /\ kind_ok C r v
     | Err e =>
         (deref rid_eqb (nodes C) (fuel C) r (w_ctx w) (w_st w) = None /\ e = Diverges)
         \/ evals r (c_cache (w_ctx w)) (w_st w) (Err e) (c_cache (w_ctx w')) (w_st w')
         \/ (e = CyclicReferenceError /\ loops rid_eqb (nodes C) r (c_cache (w_ctx w)) (w_st w))
     end.
Proof.
  unfold dref. intros H (N & T).
  destruct (deref rid_eqb (nodes C) (fuel C) r (w_ctx w) (w_st w)) as [[[o c'] s']|] eqn:E.
  2:{ inversion H; subst. split; [split; auto|]. split; [reflexivity|]. auto. }
  pose proof (deref_input C _ _ _ _ _ _ _ E) as I.
  pose proof (deref_kept rid_eqb rid_eqb_spec (nodes C) _ _ _ _ _ _ _ E) as (K & _).
  destruct (deref_typed rid_eqb rid_eqb_spec (nodes C) (kind_ok C) (nodes_kinds C) _ _ _ _ _ _ _ E T) as (T1 & T2).
  pose proof (deref_sound rid_eqb rid_eqb_spec (nodes C) _ _ _ _ _ _ _ E) as S.
  assert (W : forall x, wok (mkW c' s' x)) by (intros x0; split; cbn [w_ctx]; [congruence|auto]).
  destruct o as [v|e|r']; inversion H; subst; cbn [w_ctx w_st w_out]; (split; [apply W|]; split; [reflexivity|]; split; [exact I|]).
  - split; [exact S|]. now apply T2.
  - right. left. exact S.
  - right. right. split; [reflexivity|].
    apply (proj1 (deref_cyclic_iff rid_eqb rid_eqb_spec (nodes C) _ _ _ _ _ _ _ N E)). eauto.
Qed.

Lemma wrap_ok {A} (m : stM world A) w v w' : wrap m w = (Ok v, w') -> m w = (Ok v, w').
Proof. unfold wrap. destruct (m w) as [[a|e] w1]; intros H; inversion H; subst; reflexivity. Qed.

Lemma sbind_ok {S A B} (m : stM S A) (f : A -> stM S B) s y s' : sbind m f s = (Ok y, s') ->
  exists a s1, m s = (Ok a, s1) /\ f a s1 = (Ok y, s').
Proof. unfold sbind. destruct (m s) as [[a|e] s1]; intros H; [eauto|discriminate]. Qed.

Lemma pack_field_ok i f w w' : packers_ok C -> wok w -> out_ok (w_out w) -> pack_field C i f w = (Ok tt, w') ->
  wok w' /\ out_ok (w_out w') /\ s_input (w_st w') = s_input (w_st w) /\ exists p, part_fits p
    /\ placed_all [p] (ba_bits (w_out w)) (ba_bits (w_out w'))
    /\ forall l ps m' s', packing C l (c_cache (w_ctx w')) (w_st w') ps m' s' ->
         packing C ((i, f) :: l) (c_cache (w_ctx w)) (w_st w) (p :: ps) m' s'.
Proof.
  intros Hp W O H. unfold pack_field in H. apply sbind_ok in H. destruct H as (c & w1 & H1 & H).
  destruct (dref_cases _ _ _ _ H1 W) as (W1 & O1 & N1 & E1 & _).
  destruct (truthy c) eqn:Tc.
  - apply wrap_ok in H. apply sbind_ok in H. destruct H as (p & w2 & H2 & H).
    destruct (dref_cases _ _ _ _ H2 W1) as (W2 & O2 & N2 & E2 & K2).
    apply sbind_ok in H. destruct H as (q & w3 & H3 & H).
    destruct (dref_cases _ _ _ _ H3 W2) as (W3 & O3 & N3 & E3 & K3).
    cbn [kind_ok r_kind] in K2, K3. destruct K2 as (b & -> & Kb). destruct K3 as (l & ->). specialize (Kb Hp).
    apply sbind_ok in H. destruct H as (b' & w4 & H4 & H). inversion H4; subst b' w4.
    apply sbind_ok in H. destruct H as (l' & w4 & H5 & H). inversion H5; subst l' w4.
    unfold out_set in H. destruct (output_set b l (w_out w3)) as [[[]|e] x] eqn:Eo; inversion H; subst.
    assert (O3' : out_ok (w_out w3)) by (rewrite O3, O2, O1; exact O).
    destruct (output_set_inv b l _ _ Kb O3' Eo) as (Ox & Fx & Px).
    split; [exact W3|]. split; [exact Ox|]. split; [cbn [w_st]; congruence|]. exists (Some (b, l)). split; [exact Fx|]. split.
    + econstructor; [|constructor]. cbn [w_out]. rewrite O3, O2, O1 in Px. exact Px.
    + cbn [w_ctx w_st]. intros l0 ps m' s' Hl. econstructor; eauto.
  - inversion H; subst. split; [exact W1|]. split; [now rewrite O1|]. split; [exact N1|]. exists None. split; [exact Logic.I|]. split.
    + constructor. rewrite O1. constructor.
    + intros l ps m' s' Hl. econstructor; eauto.
Qed.

Lemma placed_all_cons p ps b b1 b' : placed_all [p] b b1 -> placed_all ps b1 b' -> placed_all (p :: ps) b b'.
Proof.
  intros H1 H2. inversion H1 as [|? ? ? Hq|? ? ? ? ? ? Hv Hq]; subst; inversion Hq; subst; econstructor; eauto.
Qed.

Lemma pack_fields_ok l : forall w w', packers_ok C -> wok w -> out_ok (w_out w) ->
  sforeach l (fun p => pack_field C (fst p) (snd p)) w = (Ok tt, w') ->
  wok w' /\ out_ok (w_out w') /\ s_input (w_st w') = s_input (w_st w) /\ exists ps, Forall part_fits ps
    /\ placed_all ps (ba_bits (w_out w)) (ba_bits (w_out w'))
    /\ packing C l (c_cache (w_ctx w)) (w_st w) ps (c_cache (w_ctx w')) (w_st w').
Proof.
  induction l as [|[i f] l IH]; intros w w' Hp W O H; cbn [sforeach fst snd] in H.
  - inversion H; subst. split; [auto|]. split; [auto|]. split; [auto|]. exists []. split; [constructor|]. split; constructor.
  - apply sbind_ok in H. destruct H as ([] & w1 & H1 & H).
    destruct (pack_field_ok i f w w1 Hp W O H1) as (W1 & O1 & N1 & p & F1 & P1 & K1).
    destruct (IH w1 w' Hp W1 O1 H) as (W2 & O2 & N2 & ps & F2 & P2 & K2).
    split; [auto|]. split; [auto|]. split; [congruence|]. exists (p :: ps). split; [constructor; auto|]. split; [eapply placed_all_cons; eauto|].
    apply K1, K2.
Qed.

Lemma out_ok_new : out_ok (new_baa []).
Proof.
  assert (B : bytes_ok []) by constructor. split; [apply new_baa_ok, B|]. split; [reflexivity|].
  intros i Hi. unfold abit. cbn [new_baa ba_buf]. apply bit_at_nil.
Qed.

Lemma wok_new st : wok (mkW new_ctx st (new_baa [])).
Proof. split; [reflexivity|]. intros r v H. discriminate. Qed.

Lemma fix_size_spec n fl ul l : (~ too_long n l -> fix_size (mkCls fl ul n) l = Ok (sized n l))
  /\ (too_long n l -> fix_size (mkCls fl ul n) l = Err AssertionError).
Proof.
  unfold fix_size, sized, too_long, cdiv8. cbn [k_size]. destruct n as [n|]; [|split; [reflexivity|intros []]].
  destruct (n =? 0) eqn:E; [split; [reflexivity|lia]|].
  destruct (zlen l <=? (n + 7) / 8) eqn:F; cbn [passert rbind].
  - split; [|lia]. intros _. destruct (zlen l <? (n + 7) / 8) eqn:G; [reflexivity|].
    replace (Z.to_nat ((n + 7) / 8 - zlen l)) with 0%nat by lia. cbn [repeat]. now rewrite app_nil_r.
  - split; [|reflexivity]. lia.
Qed.
Lemma fix_size_c l : (~ too_long (k_size C) l -> fix_size C l = Ok (sized (k_size C) l))
  /\ (too_long (k_size C) l -> fix_size C l = Err AssertionError).
Proof. destruct C as [fl ul n]. exact (fix_size_spec n fl ul l). Qed.

Lemma buffer_pack_ok o bytes o' : packers_ok C -> buffer_pack C o = (Ok bytes, o') ->
  exists ps m bits, packing C (numbered C) [] (mkBst o None) ps m (mkBst o' None)
    /\ Forall part_fits ps /\ output_of ps bits
    /\ ~ too_long (k_size C) (bytes_of_bits bits) /\ bytes = sized (k_size C) (bytes_of_bits bits).
Proof.
  intros Hp H. unfold buffer_pack in H.
  destruct (sforeach (numbered C) (fun p => pack_field C (fst p) (snd p)) (start_pack o)) as [[[]|e] w] eqn:E; [|discriminate].
  destruct (pack_fields_ok _ _ _ Hp (wok_new _) out_ok_new E) as (W & O & N & ps & F & P & K).
  cbn [start_pack w_st w_ctx w_out new_ctx c_cache s_input] in *.
  apply pair_equal_spec in H. destruct H as (H1 & H2). subst o'.
  destruct O as (KO & _). unfold ba_ok in KO. rewrite buf_bytes_spec in H1 by exact KO. cbn [rbind] in H1. fold (ba_bits (w_out w)) in H1.
  exists ps, (c_cache (w_ctx w)), (ba_bits (w_out w)).
  split; [destruct (w_st w) as [o1 i1]; cbn in *; subst; exact K|]. split; [exact F|].
  split; [apply output_of_placed; [exact F|]; rewrite new_baa_bits in P by constructor; exact P|].
  destruct (fix_size_c (bytes_of_bits (ba_bits (w_out w)))) as (S1 & S2).
  assert (T : ~ too_long (k_size C) (bytes_of_bits (ba_bits (w_out w)))) by (intros T; rewrite S2 in H1 by auto; discriminate).
  split; [exact T|]. rewrite S1 in H1 by auto. congruence.
Qed.
End Pack.

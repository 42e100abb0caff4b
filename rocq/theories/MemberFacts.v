(** Proofs: how often functions of the object are called, and on which object. *)
From Verif Require Import Base BaseProofs Marshal Range IoBuffer IoSpec RefEngine RefSpec RefProofs BufferModel BufferSpec BufferFacts BufferPack
  BufferErrors ObjectSize MemberSpec.
From Coq Require Import ZArith List Bool String Lia.
Import ListNotations.
Open Scope list_scope.
Open Scope Z_scope.

Section Count.
Variable C : cls.
Variable q : rid.
Variable watch : attrs -> Z.
Hypothesis HC : counts C q watch.

Definition same_count (s s' : bst) : Prop := watch (s_obj s') = watch (s_obj s).
Notation K := (keeps same_count).

Lemma k_ret m : K (ret m).
Proof. destruct m; constructor. Qed.
Lemma k_ev a k : (forall v, K (k v)) -> K (ev a k).
Proof. intros H. destruct a; cbn [ev]; [auto|]. constructor; auto. Qed.
Lemma k_ev_list l : forall k, (forall v, K (k v)) -> K (ev_list l k).
Proof. induction l as [|a l IH]; intros k H; cbn [ev_list]; [auto|]. apply k_ev. intros v. apply IH; auto. Qed.
Lemma k_ev_refs l : forall k, (forall v, K (k v)) -> K (ev_refs l k).
Proof. induction l as [|a l IH]; intros k H; cbn [ev_refs]; [auto|]. constructor. intros v. apply IH; auto. Qed.
Lemma k_size_ o r k : (forall v, K (k v)) -> K (with_size o r k).
Proof. intros H. destruct o; cbn [with_size]; [auto|]. constructor; auto. Qed.
Lemma k_ctx (f : bst -> res rv * bst) (k : rv -> bprog) : (forall s, watch (s_obj (snd (f s))) = watch (s_obj s)) ->
  (forall v, K (k v)) -> K (PCtx f k).
Proof. intros Hf Hk. constructor; [|exact Hk]. intros s x s' E. unfold same_count. rewrite <- (Hf s), E. reflexivity. Qed.
Lemma k_assign f v : In f (k_fields C) -> K (assign (f_name f) v).
Proof. intros Hf. apply k_ctx; [|intros; constructor]. intros s. destruct (as_value v); [|reflexivity]. cbn. now apply HC. Qed.
Lemma k_ends l : forall k, (forall v, K (k v)) -> K (unpack_ends l k).
Proof.
  induction l as [|[i f] l IH]; intros k H; cbn [unpack_ends]; [auto|]. constructor. intros c. destruct (truthy c); [|apply IH; auto].
  constructor. intros p. constructor. intros r. match goal with |- keeps _ (match ?m with _ => _ end) => destruct m end; [|constructor]. apply IH; auto.
Qed.
Ltac kk := repeat first
  [ apply k_ret | apply k_assign; assumption | apply k_size_; intros ? | apply k_ev; intros ? | apply k_ev_list; intros ? | apply k_ev_refs; intros ?
  | apply k_ends; intros ?
  | apply keep_ret | apply keep_raise | apply keep_ref; intros ?
  | apply k_ctx; [intros ?; cbn [snd]; try reflexivity; try (match goal with |- context [match ?m with _ => _ end] => destruct m; reflexivity end)|intros ?]
  | match goal with |- keeps _ (match ?m with _ => _ end) => destruct m end
  | match goal with |- keeps _ (if ?m then _ else _) => destruct m end ].

(** Every other reference leaves the count alone; [q] is one call after the evaluation of its arguments. *)
Lemma nodes_count_or r : K (nodes C r)
  \/ (r = q /\ exists l F, nodes C r = ev_list l (fun vs => PCtx (F vs) PRet) /\ forall vs s, watch (s_obj (snd (F vs s))) = watch (s_obj s) + 1).
Proof.
  destruct HC as (H1 & H2 & H3).
  assert (T : K (total_prog C)) by (unfold total_prog, if_pack; kk).
  unfold nodes. destruct (r_kind r) eqn:Er; try (left; exact T);
    try (destruct (nth_error (k_fields C) (r_no r)) as [f|] eqn:Ef; [|left; constructor]; cbn [field_node]; assert (Hin := nth_error_In _ _ Ef)).
  - left. unfold pack_pos. kk.
  - left. unfold pack_len. kk.
  - unfold before_value. destruct (f_before f) as [[g| |]|] eqn:Eb; try (left; solve [constructor]).
    destruct (rid_eqb (mkRid KBefore (r_no r)) q) eqn:Eq.
    + right. split. { apply rid_eqb_spec in Eq. rewrite <- Eq. destruct r; cbn in *; congruence. }
      exists [], (fun _ s => let '(x, o) := g (s_obj s) in (rmap RVal x, mkBst o (s_input s))). split; [reflexivity|].
      intros _ s. pose proof (H3 _ _ _ (s_obj s) Ef Eb) as E. rewrite Eq in E. destruct (g (s_obj s)); exact E.
    + left. apply k_ctx; [|intros; constructor]. intros s. pose proof (H3 _ _ _ (s_obj s) Ef Eb) as E. rewrite Eq, Z.add_0_r in E. destruct (g (s_obj s)); exact E.
  - left. unfold pack_value, get_attr. kk.
  - left. unfold pack_ref. kk.
  - left. unfold unpack_pos. kk.
  - left. unfold unpack_len. kk.
  - left. unfold BufferModel.part. kk.
  - left. unfold unpack_ref. kk.
  - left. unfold field_unpack. kk.
  - left. unfold unpack_value. kk.
  - left. unfold field_value, if_pack. kk.
  - destruct (nth_error (k_users C) (r_no r)) as [u|] eqn:Eu; [|left; constructor].
    destruct u; cbn [user_prog]; try (left; exact T);
      try (left; unfold after_prog, if_pack, get_attr, some_ranges; kk; fail).
    destruct (rid_eqb (mkRid KUser (r_no r)) q) eqn:Eq.
    + right. split. { apply rid_eqb_spec in Eq. rewrite <- Eq. destruct r; cbn in *; congruence. }
      eexists args, (fun vs s => let '(r0, o) := f vs (s_obj s) in (r0, mkBst o (s_input s))). split; [reflexivity|].
      intros vs s. pose proof (H2 _ _ _ vs (s_obj s) Eu) as E. rewrite Eq in E. destruct (f vs (s_obj s)); exact E.
    + left. apply k_ev_list. intros vs. apply k_ctx; [|intros; constructor]. intros s. pose proof (H2 _ _ _ vs (s_obj s) Eu) as E.
      rewrite Eq, Z.add_0_r in E. destruct (f vs (s_obj s)); exact E.
Qed.

(** [q] is a function of the object. *)
Hypothesis Hq : is_function C q.
Lemma nodes_count r : (r <> q /\ K (nodes C r))
  \/ (r = q /\ exists l F, nodes C r = ev_list l (fun vs => PCtx (F vs) PRet) /\ forall vs s, watch (s_obj (snd (F vs s))) = watch (s_obj s) + 1).
Proof.
  destruct (rid_eqb r q) eqn:E.
  - right. apply rid_eqb_spec in E. subst r. split; [reflexivity|]. destruct HC as (_ & H2 & H3).
    assert (Eq : rid_eqb q q = true) by now apply rid_eqb_spec.
    destruct Hq as [(k & g & l & -> & Hk)|(i & f & g & -> & Hi & Hb)]; unfold nodes; cbn [r_kind r_no].
    + rewrite Hk. exists l, (fun vs s => let '(r0, o) := g vs (s_obj s) in (r0, mkBst o (s_input s))). split; [reflexivity|].
      intros vs s. pose proof (H2 _ _ _ vs (s_obj s) Hk) as E. rewrite Eq in E. destruct (g vs (s_obj s)); exact E.
    + rewrite Hi. cbn [field_node]. unfold before_value. rewrite Hb. exists [], (fun _ s => let '(x, o) := g (s_obj s) in (rmap RVal x, mkBst o (s_input s))).
      split; [reflexivity|]. intros _ s. pose proof (H3 _ _ _ (s_obj s) Hi Hb) as E. rewrite Eq in E. destruct (g (s_obj s)); exact E.
  - destruct (nodes_count_or r) as [H|(-> & _)]; [left|now rewrite (proj2 (rid_eqb_spec q q) eq_refl) in E].
    split; [|exact H]. intros ->. now rewrite (proj2 (rid_eqb_spec q q) eq_refl) in E.
Qed.

Variable w0 : Z.
(** The count, as long as nothing failed. *)
Definition counted (c : ctx rid rv) (s : bst) : Prop :=
  watch (s_obj s) = w0 + match RefEngine.lookup rid_eqb q (c_cache c) with Some _ => 1 | None => 0 end.
Definition bounded (s : bst) : Prop := watch (s_obj s) = w0 \/ watch (s_obj s) = w0 + 1.
Lemma counted_bounded c s : counted c s -> bounded s.
Proof. unfold counted, bounded. destruct (RefEngine.lookup rid_eqb q (c_cache c)); lia. Qed.

Definition after (o : outcome rid rv) (c : ctx rid rv) (s : bst) : Prop := match o with OOk _ => counted c s | _ => bounded s end.

Lemma run_count n : (forall r c s o c' s', deref rid_eqb (nodes C) n r c s = Some (o, c', s') -> counted c s -> after o c' s') ->
  forall p, K p -> forall c s o c' s', run (deref rid_eqb (nodes C) n) p c s = Some (o, c', s') -> counted c s -> after o c' s'.
Proof.
  intros IH p. induction 1 as [v|e|r k Hk IHk|f k Hf Hk IHk]; intros c s o c' s' H J; cbn [run] in H.
  - inversion H; subst; exact J.
  - inversion H; subst. now apply counted_bounded in J.
  - destruct (deref rid_eqb (nodes C) n r c s) as [[[o1 c1] s1]|] eqn:E; [|discriminate].
    pose proof (IH _ _ _ _ _ _ E J) as J1. destruct o1; [eauto|inversion H; subst; exact J1|inversion H; subst; exact J1].
  - destruct (f s) as [[v|e] s1] eqn:Es; pose proof (Hf _ _ _ Es) as F; unfold same_count in F.
    + eapply IHk; [exact H|]. unfold counted in *. congruence.
    + inversion H; subst. apply counted_bounded in J. cbn [after]. unfold bounded in *. rewrite F. exact J.
Qed.

(** The evaluation of [q] itself. *)
Lemma run_call n F : (forall r c s o c' s', deref rid_eqb (nodes C) n r c s = Some (o, c', s') -> counted c s -> after o c' s') ->
  (forall vs s, watch (s_obj (snd (F vs s))) = watch (s_obj s) + 1) ->
  forall l (K0 : list rv -> list rv) c s o c' s', run (deref rid_eqb (nodes C) n) (ev_list l (fun vs => PCtx (F (K0 vs)) PRet)) c s = Some (o, c', s') -> counted c s ->
  In q (c_nodes c) -> RefEngine.lookup rid_eqb q (c_cache c) = None ->
  RefEngine.lookup rid_eqb q (c_cache c') = None /\ match o with OOk _ => watch (s_obj s') = w0 + 1 | _ => bounded s' end.
Proof.
  intros IH HF l. induction l as [|a l IHl]; intros K0 c s o c' s' H J Hin Hno; cbn [ev_list] in H.
  - cbn [run] in H. unfold counted in J. rewrite Hno in J. pose proof (HF (K0 []) s) as F1. unfold bounded.
    destruct (F (K0 []) s) as [[v|e] s1]; cbn [snd] in F1; inversion H; subst; (split; [exact Hno|lia]).
  - destruct a as [v|r]; cbn [ev] in H.
    + exact (IHl (fun vs => K0 (v :: vs)) _ _ _ _ _ H J Hin Hno).
    + cbn [run] in H. destruct (deref rid_eqb (nodes C) n r c s) as [[[o1 c1] s1]|] eqn:E; [|discriminate].
      pose proof (IH _ _ _ _ _ _ E J) as J1.
      destruct (deref_kept rid_eqb rid_eqb_spec (nodes C) _ _ _ _ _ _ _ E) as (K1 & _ & _ & K4 & _).
      assert (Hno1 : RefEngine.lookup rid_eqb q (c_cache c1) = None) by (rewrite K4; auto).
      destruct o1 as [v|e|x].
      * apply (IHl (fun vs => K0 (v :: vs)) _ _ _ _ _ H J1); [now rewrite K1|exact Hno1].
      * inversion H; subst. split; [exact Hno1|exact J1].
      * inversion H; subst. split; [exact Hno1|exact J1].
Qed.

Lemma deref_count n : forall r c s o c' s', deref rid_eqb (nodes C) n r c s = Some (o, c', s') -> counted c s -> after o c' s'.
Proof.
  induction n as [|n IH]; intros r c s o c' s' H J; [discriminate|]. cbn [deref] in H.
  destruct (mem rid_eqb r (c_nodes c)). { inversion H; subst. now apply counted_bounded in J. }
  destruct (RefEngine.lookup rid_eqb r (c_cache c)) as [w|] eqn:El; [inversion H; subst; exact J|].
  destruct (run (deref rid_eqb (nodes C) n) (nodes C r) (push r c) s) as [[[o1 c1] s1]|] eqn:E; [|discriminate].
  destruct (nodes_count r) as [(Hne & HK)|(-> & l & F & EF & HF)].
  - pose proof (run_count n IH _ HK _ _ _ _ _ E) as A. cbn [push] in A. specialize (A J).
    destruct o1 as [v|e|x]; inversion H; subst; cbn [after] in *; try exact A.
    unfold counted in *. cbn [pop store c_cache RefEngine.lookup].
    destruct (rid_eqb q r) eqn:Eqr; [|exact A]. apply rid_eqb_spec in Eqr. congruence.
  - rewrite EF in E. destruct (run_call n F IH HF l (fun vs => vs) _ _ _ _ _ E) as (N & A).
    + exact J.
    + left. reflexivity.
    + exact El.
    + destruct o1 as [v|e|x]; inversion H; subst; cbn [after] in *; try exact A.
      unfold counted. cbn [pop store c_cache RefEngine.lookup]. rewrite (proj2 (rid_eqb_spec q q) eq_refl). exact A.
Qed.

(** ** Whole operations *)
Definition wcount (w : world) : Prop := counted (w_ctx w) (w_st w).
Definition wafter {A} (x : res A) (w : world) : Prop := match x with Ok _ => wcount w | Err _ => bounded (w_st w) end.
Definition stays {A} (m : stM world A) : Prop := forall w x w', m w = (x, w') -> wcount w ->
  wafter x w' /\ (forall v, RefEngine.lookup rid_eqb q (c_cache (w_ctx w)) = Some v -> RefEngine.lookup rid_eqb q (c_cache (w_ctx w')) = Some v).

Lemma stays_dref r : stays (dref C r).
Proof.
  intros w x w' H J. unfold dref in H. destruct (deref rid_eqb (nodes C) (fuel C) r (w_ctx w) (w_st w)) as [[[o c'] s']|] eqn:E.
  - pose proof (deref_count _ _ _ _ _ _ _ E J) as A. destruct (deref_kept rid_eqb rid_eqb_spec (nodes C) _ _ _ _ _ _ _ E) as (_ & _ & X & _).
    destruct o; inversion H; subst; cbn [w_ctx]; split; auto; exact A.
  - inversion H; subst. split; [now apply counted_bounded in J|auto].
Qed.
Lemma stays_ret {A} (v : A) : stays (sret v).
Proof. intros w x w' H J. inversion H; subst. split; [exact J|auto]. Qed.
Lemma stays_lift {A} (v : res A) : stays (slift v).
Proof. intros w x w' H J. inversion H; subst. split; [|auto]. destruct x; [exact J|now apply counted_bounded in J]. Qed.
Lemma stays_bind {A B} (m : stM world A) (f : A -> stM world B) : stays m -> (forall v, stays (f v)) -> stays (sbind m f).
Proof.
  intros Hm Hf w x w' H J. unfold sbind in H. destruct (m w) as [[v|e] w1] eqn:E; destruct (Hm _ _ _ E J) as (A1 & A2).
  - destruct (Hf v _ _ _ H A1) as (B1 & B2). split; [exact B1|]. intros u Hu. apply B2, A2, Hu.
  - inversion H; subst. split; [exact A1|exact A2].
Qed.
Lemma stays_wrap {A} (m : stM world A) : stays m -> stays (wrap m).
Proof.
  intros Hm w x w' H J. unfold wrap in H. destruct (m w) as [[v|e] w1] eqn:E; destruct (Hm _ _ _ E J) as (A1 & A2); inversion H; subst; split; auto.
Qed.
Lemma stays_each {A} (l : list A) (f : A -> stM world unit) : (forall a, In a l -> stays (f a)) -> stays (sforeach l f).
Proof.
  induction l as [|a l IH]; intros Hf; cbn [sforeach]; [apply stays_ret|]. apply stays_bind; [apply Hf; now left|]. intros _. apply IH. intros b Hb. apply Hf. now right.
Qed.
Lemma stays_out b l : stays (out_set b l).
Proof.
  intros w x w' H J. unfold out_set in H. destruct (output_set b l (w_out w)) as [[u|e] y]; inversion H; subst; split; auto.
  now apply counted_bounded in J.
Qed.
Lemma stays_set f v : In f (k_fields C) -> stays (w_setattr (f_name f) v).
Proof.
  intros Hf w x w' H J. inversion H; subst. split; [|auto]. cbn [wafter wcount w_ctx w_st]. unfold wcount, counted in *. cbn [w_ctx w_st s_obj].
  destruct HC as (H1 & _). rewrite H1 by exact Hf. exact J.
Qed.
Lemma stays_pack_field i f : stays (pack_field C i f).
Proof.
  unfold pack_field. apply stays_bind; [apply stays_dref|]. intros c. destruct (truthy c); [|apply stays_ret]. apply stays_wrap.
  apply stays_bind; [apply stays_dref|]. intros p. apply stays_bind; [apply stays_dref|]. intros r.
  apply stays_bind; [apply stays_lift|]. intros b. apply stays_bind; [apply stays_lift|]. intros l. apply stays_out.
Qed.
Lemma stays_unpack_field i f : In f (k_fields C) -> stays (unpack_field C i f).
Proof.
  intros Hf. unfold unpack_field. apply stays_wrap. apply stays_bind; [apply stays_dref|]. intros c. destruct (truthy c); [|now apply stays_set].
  apply stays_bind; [|intros _; apply stays_bind; [apply stays_dref|intros; apply stays_ret]].
  apply stays_each. intros j _. apply stays_bind; [apply stays_dref|intros; apply stays_ret].
Qed.
End Count.

Section Whole.
Variable C : cls.
Variable q : rid.
Variable watch : attrs -> Z.
Hypothesis HC : counts C q watch.
Hypothesis Hq : is_function C q.

Lemma start_count o i : wcount q watch (watch o) (mkW new_ctx (mkBst o i) (new_baa [])).
Proof. unfold wcount, counted. cbn. lia. Qed.
Lemma bounded_once o s : bounded watch (watch o) s -> at_most_once watch o (s_obj s).
Proof. auto. Qed.

Theorem pack_once o r o' : buffer_pack C o = (r, o') -> at_most_once watch o o'.
Proof.
  unfold buffer_pack. destruct (sforeach (numbered C) (fun p => pack_field C (fst p) (snd p)) (start_pack o)) as [x w] eqn:E.
  pose proof (stays_each q watch (watch o) (numbered C) (fun p => pack_field C (fst p) (snd p))) as S.
  assert (S0 : stays q watch (watch o) (sforeach (numbered C) (fun p => pack_field C (fst p) (snd p)))).
  { apply S. intros a _. now apply stays_pack_field. }
  destruct (S0 _ _ _ E (start_count o None)) as (A & _). destruct x; intros H; inversion H; subst; [apply counted_bounded in A|]; exact A.
Qed.
Theorem unpack_once b o r o' : buffer_unpack C b o = (r, o') -> at_most_once watch o o'.
Proof.
  unfold buffer_unpack. destruct (input_buffer b) as [input|e]; [|intros H; inversion H; subst; left; reflexivity].
  destruct (sforeach (numbered C) (fun p => unpack_field C (fst p) (snd p)) (mkW new_ctx (mkBst o (Some input)) (new_baa []))) as [x w] eqn:E.
  assert (S0 : stays q watch (watch o) (sforeach (numbered C) (fun p => unpack_field C (fst p) (snd p)))).
  { apply stays_each. intros [i f] Hin. apply stays_unpack_field; auto. cbn [snd]. eapply nth_error_In, numbered_in, Hin. }
  destruct (S0 _ _ _ E (start_count o _)) as (A & _). destruct x as [u|e]; [|intros H; inversion H; subst; exact A].
  destruct (dref C (mkRid KTotal 0) w) as [y w'] eqn:E2. destruct (stays_dref C q watch HC Hq (watch o) _ _ _ _ E2 A) as (B & _).
  destruct y; intros H; inversion H; subst; [apply counted_bounded in B|]; exact B.
Qed.

(** A condition is evaluated, and remembered. *)
Lemma dref_known r w v w' : dref C r w = (Ok v, w') -> RefEngine.lookup rid_eqb r (c_cache (w_ctx w')) = Some v.
Proof.
  unfold dref. destruct (deref rid_eqb (nodes C) (fuel C) r (w_ctx w) (w_st w)) as [[[o c'] s']|] eqn:E; [|discriminate].
  destruct o; intros H; inversion H; subst. cbn [w_ctx]. exact (deref_value_cached rid_eqb rid_eqb_spec (nodes C) _ _ _ _ _ _ _ E).
Qed.
Lemma each_known (body : nat * field -> stM world unit) l w0 : forall w w',
  (forall p, In p l -> stays q watch w0 (body p)) ->
  sforeach l body w = (Ok tt, w') -> wcount q watch w0 w ->
  (exists p, In p l /\ forall w x w', body p w = (Ok x, w') -> wcount q watch w0 w -> RefEngine.lookup rid_eqb q (c_cache (w_ctx w')) <> None) ->
  wcount q watch w0 w' /\ RefEngine.lookup rid_eqb q (c_cache (w_ctx w')) <> None.
Proof.
  induction l as [|a l IH]; intros w w' Hs H J (p & Hin & Hp); [destruct Hin|]. cbn [sforeach] in H. apply sbind_ok in H. destruct H as (u & w1 & H1 & H2).
  destruct (Hs a (or_introl eq_refl) _ _ _ H1 J) as (A & _).
  destruct Hin as [->|Hin].
  - pose proof (Hp _ _ _ H1 J) as N.
    assert (S0 : stays q watch w0 (sforeach l body)) by (apply stays_each; intros; apply Hs; now right).
    destruct (S0 _ _ _ H2 A) as (B1 & B2). split; [exact B1|].
    destruct (RefEngine.lookup rid_eqb q (c_cache (w_ctx w1))) as [v|]; [|congruence]. rewrite (B2 v eq_refl). discriminate.
  - apply (IH w1 w'); auto. + intros; apply Hs; now right. + now exists p.
Qed.
Lemma known_once o w : wcount q watch (watch o) w -> RefEngine.lookup rid_eqb q (c_cache (w_ctx w)) <> None -> exactly_once watch o (s_obj (w_st w)).
Proof. unfold wcount, counted, exactly_once. destruct (RefEngine.lookup rid_eqb q (c_cache (w_ctx w))); [auto|congruence]. Qed.

Theorem pack_condition_once o bytes o' f : In f (k_fields C) -> f_pack_if f = q -> buffer_pack C o = (Ok bytes, o') -> exactly_once watch o o'.
Proof.
  intros Hf Hif. unfold buffer_pack.
  destruct (sforeach (numbered C) (fun p => pack_field C (fst p) (snd p)) (start_pack o)) as [[[]|e] w] eqn:E; intros H; inversion H; subst o'.
  destruct (each_known _ _ (watch o) _ _ (fun p _ => stays_pack_field C q watch HC Hq (watch o) (fst p) (snd p)) E (start_count o None)) as (A & B).
  - apply In_nth_error in Hf. destruct Hf as (i & Hi). exists (i, f). split; [now apply numbered_in|]. cbn [fst snd].
    intros w1 x w2 H2 J. unfold pack_field in H2. apply sbind_ok in H2. destruct H2 as (c & w3 & H3 & H4). rewrite Hif in H3.
    destruct (stays_dref C q watch HC Hq (watch o) _ _ _ _ H3 J) as (J3 & _). apply dref_known in H3.
    assert (S0 : forall m : stM world unit, stays q watch (watch o) m -> m w3 = (Ok x, w2) -> RefEngine.lookup rid_eqb q (c_cache (w_ctx w2)) <> None).
    { intros m Hm Em. destruct (Hm _ _ _ Em J3) as (_ & M). rewrite (M _ H3). discriminate. }
    eapply S0; [|exact H4]. destruct (truthy c); [|apply stays_ret]. apply stays_wrap.
    apply stays_bind; [now apply (stays_dref C)|]. intros p. apply stays_bind; [now apply (stays_dref C)|]. intros r.
    apply stays_bind; [apply stays_lift|]. intros b. apply stays_bind; [apply stays_lift|]. intros l. apply stays_out.
  - now apply known_once.
Qed.
Theorem unpack_condition_once b o n o' f : In f (k_fields C) -> f_unpack_if f = q -> buffer_unpack C b o = (Ok n, o') -> exactly_once watch o o'.
Proof.
  intros Hf Hif. unfold buffer_unpack. destruct (input_buffer b) as [input|e]; [|discriminate].
  destruct (sforeach (numbered C) (fun p => unpack_field C (fst p) (snd p)) (mkW new_ctx (mkBst o (Some input)) (new_baa []))) as [[[]|e] w] eqn:E; [|discriminate].
  destruct (dref C (mkRid KTotal 0) w) as [[v|e] w'] eqn:E2; [|discriminate]. intros H; inversion H; subst o'.
  assert (St : forall p, In p (numbered C) -> stays q watch (watch o) (unpack_field C (fst p) (snd p))).
  { intros [i f'] Hin. apply stays_unpack_field; auto. cbn [snd]. eapply nth_error_In, numbered_in, Hin. }
  destruct (each_known _ _ (watch o) _ _ St E (start_count o (Some input))) as (A & B).
  - pose proof Hf as Hf'. apply In_nth_error in Hf. destruct Hf as (i & Hi). exists (i, f). split; [now apply numbered_in|]. cbn [fst snd].
    intros w1 x w2 H2 J. unfold unpack_field in H2. apply wrap_ok in H2. apply sbind_ok in H2. destruct H2 as (c & w3 & H3 & H4). rewrite Hif in H3.
    destruct (stays_dref C q watch HC Hq (watch o) _ _ _ _ H3 J) as (J3 & _). apply dref_known in H3.
    assert (S0 : forall m : stM world unit, stays q watch (watch o) m -> m w3 = (Ok x, w2) -> RefEngine.lookup rid_eqb q (c_cache (w_ctx w2)) <> None).
    { intros m Hm Em. destruct (Hm _ _ _ Em J3) as (_ & M). rewrite (M _ H3). discriminate. }
    eapply S0; [|exact H4]. destruct (truthy c); [|now apply (stays_set C q watch HC (watch o) f)].
    apply stays_bind; [|intros _; apply stays_bind; [now apply (stays_dref C)|intros; apply stays_ret]].
    apply stays_each. intros j _. apply stays_bind; [now apply (stays_dref C)|intros; apply stays_ret].
  - destruct (stays_dref C q watch HC Hq (watch o) _ _ _ _ E2 A) as (A2 & M). apply known_once; [exact A2|].
    destruct (RefEngine.lookup rid_eqb q (c_cache (w_ctx w))) as [u|]; [|congruence]. rewrite (M u eq_refl). discriminate.
Qed.
End Whole.

(** calc_byte_size() *)
Lemma own_users C own k u : nth_error (k_users (context_of_size C own)) k = Some u ->
  (exists g, (forall vs o, snd (g vs o) = o) /\ u = UMember g []) \/ (forall g l, u <> UMember g l) \/ nth_error (k_users C) k = Some u.
Proof.
  unfold context_of_size. cbn [k_users]. intros H.
  assert (T : forall g l, own_total C own <> UMember g l) by (intros g l; unfold own_total; destruct (k_size C); discriminate).
  assert (D : (k < List.length (k_users C))%nat \/ u = own_total C own).
  { destruct (Nat.lt_ge_cases k (List.length (k_users C))) as [L|L]; [now left|right].
    rewrite nth_error_app2 in H by (destruct (Nat.eqb own (List.length (k_fields C))); [|rewrite map_length]; exact L).
    
    destruct (k - List.length (if Nat.eqb own (List.length (k_fields C)) then k_users C else map (in_own_context C own) (k_users C)))%nat as [|[|n]];
      [now inversion H|discriminate|discriminate]. }
  destruct D as [L| ->]; [|now right; left].
  rewrite nth_error_app1 in H by (destruct (Nat.eqb own (List.length (k_fields C))); [|rewrite map_length]; exact L).
  destruct (Nat.eqb own (List.length (k_fields C))); [now right; right|].
  rewrite nth_error_map in H. destruct (nth_error (k_users C) k) as [u0|] eqn:E; [|discriminate]. cbn [option_map] in H. inversion H; subst u.
  destruct u0; cbn [in_own_context]; auto.
  destruct (find_field n (firstn own (numbered C))); [auto|]. left. eexists. split; [|reflexivity]. reflexivity.
Qed.
Theorem size_once C own q watch o r o' : counts C q watch -> is_function C q -> calc_byte_size C own o = (r, o') -> at_most_once watch o o'.
Proof.
  intros (H1 & H2 & H3) Hq. set (C' := context_of_size C own).
  assert (Q' : is_function C' q).
  { destruct Hq as [(k & g & l & -> & Hk)|(i & f & g & -> & Hi & Hb)]; [left; exists k, g, l|right; exists i, f, g; auto].
    split; [reflexivity|]. unfold C', context_of_size. cbn [k_users].
    assert (L : (k < List.length (k_users C))%nat) by (apply nth_error_Some; congruence).
    rewrite nth_error_app1 by (destruct (Nat.eqb own (List.length (k_fields C))); [|rewrite map_length]; exact L).
    destruct (Nat.eqb own (List.length (k_fields C))); [exact Hk|]. rewrite nth_error_map, Hk. reflexivity. }
  assert (C0 : counts C' q watch).
  { split; [exact H1|]. split; [|exact H3]. intros k g l vs o0 Hk. destruct (own_users C own k _ Hk) as [(g' & G & E)|[N|E]].
    - inversion E; subst g' l. rewrite G. destruct (rid_eqb (mkRid KUser k) q) eqn:Eq; [|lia]. exfalso. apply rid_eqb_spec in Eq. subst q.
      destruct Hq as [(k' & g' & l' & K & Hk')|(i & f & g' & K & _)]; [|discriminate]. inversion K; subst k'.
      pose proof (H2 _ _ _ vs o0 Hk') as W. rewrite (proj2 (rid_eqb_spec _ _) eq_refl) in W.
      assert (g' = g). { unfold C', context_of_size in Hk. cbn [k_users] in Hk. assert (L : (k < List.length (k_users C))%nat) by (apply nth_error_Some; congruence).
        rewrite nth_error_app1 in Hk by (destruct (Nat.eqb own (List.length (k_fields C))); [|rewrite map_length]; exact L).
        destruct (Nat.eqb own (List.length (k_fields C))); [congruence|]. rewrite nth_error_map, Hk' in Hk. cbn in Hk. congruence. }
      subst g'. rewrite G in W. lia.
    - now elim (N g l).
    - now apply (H2 _ _ l). }
  unfold calc_byte_size. fold C'. destruct (dref C' (mkRid KUser (List.length (k_users C))) (start_pack o)) as [x w] eqn:E.
  destruct (stays_dref C' q watch C0 Q' (watch o) _ _ _ _ E (start_count q watch o None)) as (A & _).
  destruct x; intros H; inversion H; subst; [apply counted_bounded in A|]; exact A.
Qed.

(** ** The input stays *)
Lemma eval_input C r m s x m' s' : eval rid_eqb (nodes C) r m s x m' s' -> s_input s' = s_input s.
Proof.
  intros H. induction H using eval_mut with (P0 := fun p m s x m' s' _ => keeps same_input p -> s_input s' = s_input s); auto.
  - apply IHeval, nodes_same_input.
  - apply IHeval, nodes_same_input.
  - intros Hk. inversion Hk; subst. rewrite IHeval0 by auto. assumption.
  - intros Hk. inversion Hk as [| | |? ? Hf Hk']; subst. rewrite IHeval by auto. exact (Hf _ _ _ e).
  - intros Hk. inversion Hk as [| | |? ? Hf Hk']; subst. exact (Hf _ _ _ e0).
Qed.
Lemma evals_input C l m s m' s' : evals_all C l m s m' s' -> s_input s' = s_input s.
Proof. induction 1; auto. rewrite IHevals_all. eapply eval_input; eauto. Qed.
Lemma unpacking_input C l m s m' s' : unpacking C l m s m' s' -> s_input s' = s_input s.
Proof.
  induction 1; auto.
  - rewrite IHunpacking. cbn [s_input]. eapply eval_input; eauto.
  - rewrite IHunpacking. erewrite evals_input by eauto. eapply eval_input; eauto.
Qed.

(** ** Which object a condition sees *)
Lemma unpacking_split C i f : forall l2 l1 m s m' s', unpacking C (l1 ++ (i, f) :: l2) m s m' s' ->
  exists m1 s1 c m2 s2, unpacking C l1 m s m1 s1 /\ eval rid_eqb (nodes C) (f_unpack_if f) m1 s1 (Ok c) m2 s2
    /\ if truthy c then exists m3 s3, evals_all C (map (mkRid KUnpackValue) (f_unpack_after f ++ [i])) m2 s2 m3 s3 /\ unpacking C l2 m3 s3 m' s'
       else unpacking C l2 m2 (mkBst (set_attr (s_obj s2) (f_name f) VNone) (s_input s2)) m' s'.
Proof.
  intros l2 l1. induction l1 as [|[j g] l1 IH]; intros m s m' s' H; cbn [app] in H; inversion H; subst.
  - exists m, s, c, m1, s1. split; [constructor|]. split; [assumption|]. match goal with E : truthy c = false |- _ => rewrite E end. assumption.
  - exists m, s, c, m1, s1. split; [constructor|]. split; [assumption|]. match goal with E : truthy c = true |- _ => rewrite E end. eauto.
  - match goal with E : unpacking _ _ _ _ _ _ |- _ => destruct (IH _ _ _ _ E) as (ma & sa & ca & mb & sb & A1 & A2 & A3) end.
    exists ma, sa, ca, mb, sb. split; [eapply unpacking_skip; eauto|]. split; [exact A2|exact A3].
  - match goal with E : unpacking _ _ _ _ _ _ |- _ => destruct (IH _ _ _ _ E) as (ma & sa & ca & mb & sb & A1 & A2 & A3) end.
    exists ma, sa, ca, mb, sb. split; [eapply unpacking_take; eauto|]. split; [exact A2|exact A3].
Qed.
Lemma numbered_split C i f : nth_error (k_fields C) i = Some f -> exists l2, numbered C = firstn i (numbered C) ++ (i, f) :: l2.
Proof.
  intros H. assert (E : nth_error (numbered C) i = Some (i, f)).
  { unfold numbered. assert (G : forall l a i, nth_error l i = Some f -> nth_error (combine (seq a (List.length l)) l) i = Some ((a + i)%nat, f)).
    { clear. induction l as [|x l IH]; intros a [|i] H; cbn in *; try discriminate; [inversion H; subst; now rewrite Nat.add_0_r|].
      rewrite (IH _ _ H). f_equal. f_equal. lia. }
    exact (G _ 0%nat _ H). }
  destruct (nth_error_split _ _ E) as (l1 & l2 & E1 & E2). exists l2. rewrite E1 at 2. rewrite <- E2. rewrite firstn_app, Nat.sub_diag, firstn_all. cbn [firstn]. rewrite app_nil_r. now rewrite E2 in *.
Qed.
Theorem condition_sees C b o n o' i f k g : buf_ok b -> nth_error (k_fields C) i = Some f -> f_unpack_if f = mkRid KUser k ->
  nth_error (k_users C) k = Some (UMember g []) -> buffer_unpack C b o = (Ok n, o') ->
  exists input m1 s1, input_buffer b = Ok input /\ unpacking C (firstn i (numbered C)) [] (mkBst o (Some input)) m1 s1
    /\ (RefEngine.lookup rid_eqb (mkRid KUser k) m1 = None ->
        exists c o1 m2 s2 m3 s3 m' s', g [] (s_obj s1) = (Ok c, o1)
          /\ (if truthy c
              then evals_all C (map (mkRid KUnpackValue) (f_unpack_after f ++ [i])) ((mkRid KUser k, c) :: m1) (mkBst o1 (Some input)) m2 s2
              else s2 = mkBst (set_attr o1 (f_name f) VNone) (Some input))
          /\ unpacking C (skipn (S i) (numbered C)) m2 s2 m3 s3
          /\ eval rid_eqb (nodes C) (mkRid KTotal 0) m3 s3 (Ok (rnum n)) m' s' /\ o' = s_obj s').
Proof.
  intros Kb Hf Hif Hk H. destruct (buffer_unpack_ok C b o n o' Kb H) as (_ & input & m & s & m' & s' & A1 & A2 & A3 & A4).
  destruct (numbered_split C i f Hf) as (l2 & El).
  assert (E2 : skipn (S i) (numbered C) = l2).
  { assert (L : List.length (firstn i (numbered C)) = i).
    { rewrite firstn_length. assert ((i < List.length (numbered C))%nat); [|lia]. rewrite El, app_length. cbn [List.length]. 
      assert (X : (i < List.length (k_fields C))%nat) by (apply nth_error_Some; congruence).
      rewrite firstn_length. unfold numbered. rewrite combine_length, seq_length. lia. }
    rewrite El, skipn_app, L, (skipn_all2 (firstn i (numbered C))) by (rewrite L; lia). replace (S i - i)%nat with 1%nat by lia. reflexivity. }
  rewrite El in A2. destruct (unpacking_split C i f _ _ _ _ _ _ A2) as (m1 & s1 & c & m2 & s2 & B1 & B2 & B3).
  exists input, m1, s1. split; [exact A1|]. split; [exact B1|]. intros Hno. rewrite Hif in B2.
  pose proof (unpacking_input _ _ _ _ _ _ B1) as I1. cbn [s_input] in I1.
  inversion B2 as [? ? ? ? Hl|? ? ? ? ? ? _ He|]; subst; [congruence|].
  unfold nodes in He. cbn [r_kind r_no] in He. rewrite Hk in He. cbn [user_prog ev_list] in He.
  inversion He as [| | | |? ? ? ? ? ? ? ? ? Hf1 Hr|]; subst. destruct (g [] (s_obj s1)) as [y o1] eqn:Eg. inversion Hf1; subst. inversion Hr; subst.
  rewrite I1 in *. exists c, o1. destruct (truthy c).
  - destruct B3 as (m3 & s3 & B3 & B4). exists m3, s3, m, s, m', s'. auto 6.
  - do 2 eexists. exists m, s, m', s'. cbn [s_obj s_input] in B3. split; [reflexivity|]. split; [reflexivity|]. split; [exact B3|auto].
Qed.

(** Proofs about static references and about the recorded call stack. *)
From Verif Require Import Base RefEngine RefSpec RefProofs.
From Coq Require Import ZArith List Bool Lia.
Import ListNotations.

Scheme pure_mut := Induction for RefSpec.pure Sort Prop
  with pure_prog_mut := Induction for RefSpec.pure_prog Sort Prop.

Section Static.
Context {R V St : Type}.
Variable eqb : R -> R -> bool.
Hypothesis eqb_spec : forall a b, eqb a b = true <-> a = b.

Lemma pure_det : forall (nodes : R -> prog R V St) r v n, pure nodes r v n ->
  forall w m, pure nodes r w m -> v = w /\ n = m.
Proof.
  intros nodes r v n H.
  induction H using pure_mut with (P0 := fun p v n _ => forall w m, pure_prog nodes p w m -> v = w /\ n = m).
  - intros w m H2. inversion H2 as [? ? ? Hq]; subst. destruct (IHpure _ _ Hq) as (A & B). subst. split; reflexivity.
  - intros w m H2. inversion H2; subst. split; reflexivity.
  - intros w' m H2. inversion H2 as [|? ? ? ? ? ? Hq1 Hq2]; subst.
    destruct (IHpure _ _ Hq1) as (A & B). subst. destruct (IHpure0 _ _ Hq2) as (A & B). subst. split; reflexivity.
Qed.

Section WithNodes.
Variable nodes : R -> prog R V St.

Definition agree (m : list (R * V)) : Prop :=
  forall r v w n, lookup eqb r m = Some v -> pure nodes r w n -> v = w.

Definition below (N : list R) (P : V -> nat -> Prop) : Prop :=
  forall x w m, In x N -> pure nodes x w m -> exists v n, P v n /\ (n < m)%nat.

Lemma run_static : forall f,
  (forall r c s o c' s', deref eqb nodes f r c s = Some (o, c', s') -> agree (c_cache c) ->
     below (c_nodes c) (pure nodes r) ->
     agree (c_cache c') /\ (forall w n, pure nodes r w n -> o = OOk w /\ s' = s)) ->
  forall p c s o c' s', run (deref eqb nodes f) p c s = Some (o, c', s') -> agree (c_cache c) ->
     below (c_nodes c) (pure_prog nodes p) ->
     agree (c_cache c') /\ (forall w n, pure_prog nodes p w n -> o = OOk w /\ s' = s).
Proof.
  intros fu Hd. induction p as [v|e|r k IH|f k IH]; intros c s o c' s' H Ha Hb; cbn [run] in H.
  - inversion H; subst. split; [exact Ha|]. intros w n Hp. inversion Hp; subst. split; reflexivity.
  - inversion H; subst. split; [exact Ha|]. intros w n Hp. inversion Hp.
  - destruct (deref eqb nodes fu r c s) as [[[o1 c1] s1]|] eqn:E; [|discriminate].
    destruct (Hd _ _ _ _ _ _ E Ha) as (A1 & B1).
    { intros x w m Hx Hp. destruct (Hb x w m Hx Hp) as (v & n & Hv & Hn). inversion Hv; subst.
      eexists _, _. split; [eassumption|lia]. }
    pose proof (deref_kept eqb eqb_spec nodes _ _ _ _ _ _ _ E) as (K & _).
    destruct o1 as [v|e|x].
    + destruct (IH v c1 s1 o c' s' H A1) as (A2 & B2).
      { rewrite K. intros x w m Hx Hp. destruct (Hb x w m Hx Hp) as (u & n & Hv & Hn). inversion Hv; subst.
        match goal with [HP : pure nodes r ?v0 _ |- _] => destruct (B1 _ _ HP) as (E1 & _); inversion E1; subst end.
        eexists _, _. split; [eassumption|lia]. }
      split; [exact A2|]. intros w n Hp. inversion Hp; subst.
      match goal with [HP : pure nodes r ?v0 _ |- _] => destruct (B1 _ _ HP) as (E1 & E2); inversion E1; subst end.
      eapply B2; eassumption.
    + inversion H; subst. split; [exact A1|]. intros w n Hp. inversion Hp; subst.
      match goal with [HP : pure nodes r ?v0 _ |- _] => destruct (B1 _ _ HP) as (E1 & E2); discriminate end.
    + inversion H; subst. split; [exact A1|]. intros w n Hp. inversion Hp; subst.
      match goal with [HP : pure nodes r ?v0 _ |- _] => destruct (B1 _ _ HP) as (E1 & E2); discriminate end.
  - destruct (f s) as [[v|e] s1].
    + destruct (IH v c s1 o c' s' H Ha) as (A2 & _).
      { intros x w m Hx Hp. destruct (Hb x w m Hx Hp) as (u & n & Hv & Hn). inversion Hv. }
      split; [exact A2|]. intros w n Hp. inversion Hp.
    + inversion H; subst. split; [exact Ha|]. intros w n Hp. inversion Hp.
Qed.

Lemma deref_static_step : forall f r c s o c' s', deref eqb nodes f r c s = Some (o, c', s') ->
  agree (c_cache c) -> below (c_nodes c) (pure nodes r) ->
  agree (c_cache c') /\ (forall w n, pure nodes r w n -> o = OOk w /\ s' = s).
Proof.
  induction f as [|f IH]; intros r c s o c' s' H Ha Hb; [discriminate|].
  cbn [deref] in H. destruct (mem eqb r (c_nodes c)) eqn:Em.
  { inversion H; subst. split; [exact Ha|]. intros w n Hp. exfalso. apply (mem_in eqb eqb_spec) in Em.
    destruct (Hb r w n Em Hp) as (v & n' & Hv & Hn). destruct (pure_det _ _ _ _ Hp _ _ Hv). lia. }
  destruct (lookup eqb r (c_cache c)) as [v|] eqn:El.
  { inversion H; subst. split; [exact Ha|]. intros w n Hp. rewrite (Ha _ _ _ _ El Hp). split; reflexivity. }
  destruct (run (deref eqb nodes f) (nodes r) (push r c) s) as [[[o1 c1] s1]|] eqn:E; [|discriminate].
  destruct (run_static f IH _ _ _ _ _ _ E Ha) as (A1 & B1).
  { intros x w m [->|Hx] Hp.
    - inversion Hp; subst. eexists _, _. split; [eassumption|lia].
    - destruct (Hb x w m Hx Hp) as (v & n & Hv & Hn). inversion Hv; subst. eexists _, _. split; [eassumption|lia]. }
  destruct o1 as [v|e|x]; inversion H; subst; cbn [pop store note_exc c_cache].
  - split.
    + intros y v0 w n Hl Hp. destruct (eqb y r) eqn:Ey.
      * apply eqb_spec in Ey. subst y. rewrite (lookup_cons_same eqb eqb_spec) in Hl. inversion Hl; subst.
        inversion Hp; subst. match goal with [HP : pure_prog nodes _ _ _ |- _] => destruct (B1 _ _ HP) as (E1 & _) end.
        inversion E1; reflexivity.
      * cbn in Hl. rewrite Ey in Hl. eapply A1; eassumption.
    + intros w n Hp. inversion Hp; subst.
      match goal with [HP : pure_prog nodes _ _ _ |- _] => exact (B1 _ _ HP) end.
  - split; [exact A1|]. intros w n Hp. inversion Hp; subst.
    match goal with [HP : pure_prog nodes _ _ _ |- _] => exact (B1 _ _ HP) end.
  - split; [exact A1|]. intros w n Hp. inversion Hp; subst.
    match goal with [HP : pure_prog nodes _ _ _ |- _] => exact (B1 _ _ HP) end.
Qed.

Lemma agree_nil : agree [].
Proof. intros r v w n H. discriminate. Qed.

Lemma deref_all_agree : forall f l c s o c' s', deref_all eqb nodes f l c s = Some (o, c', s') ->
  agree (c_cache c) -> c_nodes c = [] -> agree (c_cache c') /\ c_nodes c' = [].
Proof.
  intros f. induction l as [|r l IH]; intros c s o c' s' H Ha Hn; cbn [deref_all] in H.
  - inversion H; subst. split; assumption.
  - destruct (deref eqb nodes f r c s) as [[[o1 c1] s1]|] eqn:E; [|discriminate].
    pose proof (deref_kept eqb eqb_spec nodes _ _ _ _ _ _ _ E) as (K & _).
    destruct (deref_static_step _ _ _ _ _ _ _ E Ha) as (A & _); [rewrite Hn; intros x w m []|].
    destruct o1; [apply (IH c1 s1 o c' s' H A); congruence| |]; inversion H; subst; (split; [exact A|congruence]).
Qed.

(** In the course of any packing or unpacking, a static reference has its static value, and
    evaluating it leaves the state alone. *)
Lemma static_value : forall f l s0 o0 c s1 n r v, static nodes r v ->
  deref_all eqb nodes f l new_ctx s0 = Some (o0, c, s1) ->
  forall s o c' s', deref eqb nodes n r c s = Some (o, c', s') -> o = OOk v /\ s' = s.
Proof.
  intros f l s0 o0 c s1 n r v (k & Hp) H s o c' s' H2.
  destruct (deref_all_agree _ _ _ _ _ _ _ H agree_nil eq_refl) as (A & B).
  destruct (deref_static_step _ _ _ _ _ _ _ H2 A) as (_ & C); [rewrite B; intros x w m []|].
  exact (C _ _ Hp).
Qed.

(** ** is_static *)
Definition all_pure (m : list (R * V)) : Prop := forall r v, lookup eqb r m = Some v -> static nodes r v.

Lemma run_nostate : forall f,
  (forall r c s v c' s', deref eqb (fun x => no_ctx (nodes x)) f r c s = Some (OOk v, c', s') ->
     all_pure (c_cache c) -> all_pure (c_cache c') /\ static nodes r v) ->
  forall p c s v c' s', run (deref eqb (fun x => no_ctx (nodes x)) f) (no_ctx p) c s = Some (OOk v, c', s') ->
     all_pure (c_cache c) -> all_pure (c_cache c') /\ exists n, pure_prog nodes p v n.
Proof.
  intros fu Hd. induction p as [v|e|r k IH|f k IH]; intros c s w c' s' H Ha; cbn [run no_ctx] in H.
  - inversion H; subst. split; [exact Ha|]. exists 0%nat. constructor.
  - discriminate.
  - destruct (deref eqb (fun x => no_ctx (nodes x)) fu r c s) as [[[o1 c1] s1]|] eqn:E; [|discriminate].
    destruct o1 as [v|e|x]; [|discriminate|discriminate].
    destruct (Hd _ _ _ _ _ _ E Ha) as (A1 & n1 & P1).
    destruct (IH v _ _ _ _ _ H A1) as (A2 & n2 & P2). split; [exact A2|].
    exists (n1 + n2)%nat. econstructor; eassumption.
  - discriminate.
Qed.

Lemma deref_nostate : forall f r c s v c' s',
  deref eqb (fun x => no_ctx (nodes x)) f r c s = Some (OOk v, c', s') ->
  all_pure (c_cache c) -> all_pure (c_cache c') /\ static nodes r v.
Proof.
  induction f as [|f IH]; intros r c s v c' s' H Ha; [discriminate|].
  cbn [deref] in H. destruct (mem eqb r (c_nodes c)); [discriminate|].
  destruct (lookup eqb r (c_cache c)) as [w|] eqn:El.
  { inversion H; subst. split; [exact Ha|]. apply Ha, El. }
  destruct (run _ (no_ctx (nodes r)) (push r c) s) as [[[o1 c1] s1]|] eqn:E; [|discriminate].
  destruct o1 as [w|e|x]; inversion H; subst.
  destruct (run_nostate f IH _ _ _ _ _ _ E Ha) as (A1 & n & P1). cbn [pop store c_cache].
  assert (Hs : static nodes r v) by (exists (S n); constructor; exact P1).
  split; [|exact Hs]. intros y u Hy. destruct (eqb y r) eqn:Ey.
  - apply eqb_spec in Ey. subst y. rewrite (lookup_cons_same eqb eqb_spec) in Hy. inversion Hy; subst. exact Hs.
  - cbn in Hy. rewrite Ey in Hy. apply A1, Hy.
Qed.

Lemma refs_in_no_ctx : forall U (p : prog R V St), refs_in U p -> refs_in U (no_ctx p).
Proof.
  intros U p H. induction H; cbn [no_ctx]; try constructor; auto.
Qed.
End WithNodes.

Lemma pure_no_ctx : forall (nodes : R -> prog R V St) r v n, pure nodes r v n ->
  pure (fun x => no_ctx (nodes x)) r v n.
Proof.
  intros nodes r v n H.
  induction H using pure_mut with (P0 := fun p v n _ => pure_prog (fun x => no_ctx (nodes x)) (no_ctx p) v n);
    cbn [no_ctx]; econstructor; eassumption.
Qed.

Lemma is_static_spec : forall (nodes : R -> prog R V St) U f s r, finite_graph nodes U -> In r U -> (length U < f)%nat ->
  exists x, is_static eqb nodes f s r = Some x /\ (x = Ok true <-> exists v, static nodes r v).
Proof.
  intros nodes U f s r HU Hr Hf.
  pose proof (deref_total eqb eqb_spec (fun x => no_ctx (nodes x)) U) as T.
  specialize (T (fun x Hx => refs_in_no_ctx U _ (HU x Hx)) f r new_ctx s Hr (NoDup_nil _) (incl_nil_l _)).
  cbn [new_ctx c_nodes length] in T. specialize (T ltac:(lia)). fold (@new_ctx R V) in T.
  unfold is_static.
  destruct (deref eqb (fun x => no_ctx (nodes x)) f r new_ctx s) as [[[o c] s1]|] eqn:E; [|congruence].
  assert (Back : forall v, static nodes r v -> o = OOk v).
  { intros v (n & Hp). destruct (deref_static_step _ _ _ _ _ _ _ _ E) as (_ & B).
    - intros x ? ? ? Hx. discriminate.
    - intros x w m [].
    - exact (proj1 (B _ _ (pure_no_ctx _ _ _ _ Hp))). }
  destruct o as [v|e|x].
  - exists (Ok true). split; [reflexivity|]. split; [|reflexivity]. intros _. exists v.
    apply (deref_nostate nodes _ _ _ _ _ _ _ E). intros y u Hy. discriminate.
  - assert (N : ~ exists v, static nodes r v) by (intros (v & Hv); discriminate (Back v Hv)).
    destruct e; eexists; (split; [reflexivity|]; split; [discriminate|intros Hv; contradiction (N Hv)]).
  - assert (N : ~ exists v, static nodes r v) by (intros (v & Hv); discriminate (Back v Hv)).
    eexists; (split; [reflexivity|]; split; [discriminate|intros Hv; contradiction (N Hv)]).
Qed.

(** ** The recorded call stack *)
Section Stack.
Variable nodes : R -> prog R V St.

Definition traced_ref (r : R) (c : ctx R V) (s : St) (o : outcome R V) (c' : ctx R V) : Prop :=
  match o with
  | OOk _ => c_exc c' = None
  | _ => (o = OCyclic r /\ In r (c_nodes c) /\ c_exc c' = None)
         \/ exists l bad m1 s1, needs eqb nodes l r (c_cache c) s bad m1 s1 /\ lookup eqb bad m1 = None
            /\ c_exc c' = Some (bad :: rev l ++ c_stack c) /\ culprit eqb nodes bad m1 s1 o (rev l ++ c_nodes c)
  end.

Definition traced_run (p : prog R V St) (c : ctx R V) (s : St) (o : outcome R V) (c' : ctx R V) : Prop :=
  match o with
  | OOk _ => c_exc c' = None
  | _ => (c_exc c' = None /\ match o with
                             | ORaise e => throws eqb nodes p (c_cache c) s e
                             | OCyclic r => In r (c_nodes c) /\ exists m1 s1, asks eqb nodes p (c_cache c) s r m1 s1
                             | OOk _ => False
                             end)
         \/ exists r0 m0 s0 l bad m1 s1, asks eqb nodes p (c_cache c) s r0 m0 s0
            /\ needs eqb nodes l r0 m0 s0 bad m1 s1 /\ lookup eqb bad m1 = None
            /\ c_exc c' = Some (bad :: rev l ++ c_stack c) /\ culprit eqb nodes bad m1 s1 o (rev l ++ c_nodes c)
  end.

Lemma run_traced : forall f,
  (forall r c s o c' s', deref eqb nodes f r c s = Some (o, c', s') -> c_exc c = None -> traced_ref r c s o c') ->
  forall p c s o c' s', run (deref eqb nodes f) p c s = Some (o, c', s') -> c_exc c = None -> traced_run p c s o c'.
Proof.
  intros fu Hd. induction p as [v|e|r k IH|f k IH]; intros c s o c' s' H Hx; cbn [run] in H.
  - inversion H; subst. exact Hx.
  - inversion H; subst. left. split; [exact Hx|constructor].
  - destruct (deref eqb nodes fu r c s) as [[[o1 c1] s1]|] eqn:E; [|discriminate].
    pose proof (Hd _ _ _ _ _ _ E Hx) as T1.
    pose proof (deref_kept eqb eqb_spec nodes _ _ _ _ _ _ _ E) as (K1 & K2 & _).
    pose proof (deref_sound eqb eqb_spec nodes _ _ _ _ _ _ _ E) as S1.
    destruct o1 as [v|e|x].
    + cbn [traced_ref] in T1. cbn [sound_ref] in S1. specialize (IH v _ _ _ _ _ H T1).
      destruct o as [w|e|x]; cbn [traced_run] in *; [exact IH| |].
      * destruct IH as [(A & B)|(r0 & m0 & s0 & l & bad & m1 & s2 & A & B & C & D & F)].
        -- left. split; [exact A|]. eapply th_after; eassumption.
        -- right. exists r0, m0, s0, l, bad, m1, s2. rewrite K2 in D. rewrite K1 in F.
           split; [eapply asks_after; eassumption|]. auto.
      * destruct IH as [(A & B & m1 & s2 & C)|(r0 & m0 & s0 & l & bad & m1 & s2 & A & B & C & D & F)].
        -- left. split; [exact A|]. split; [congruence|]. exists m1, s2. eapply asks_after; eassumption.
        -- right. exists r0, m0, s0, l, bad, m1, s2. rewrite K2 in D. rewrite K1 in F.
           split; [eapply asks_after; eassumption|]. auto.
    + inversion H; subst. cbn [traced_run]. destruct T1 as [(A & _)|(l & bad & m1 & s2 & A & B & C & D)]; [discriminate|].
      right. exists r, (c_cache c), s, l, bad, m1, s2. split; [constructor|]. auto.
    + inversion H; subst. cbn [traced_run]. destruct T1 as [(A & B & C)|(l & bad & m1 & s2 & A & B & C & D)].
      * inversion A; subst. left. split; [exact C|]. split; [exact B|]. exists (c_cache c), s. constructor.
      * right. exists r, (c_cache c), s, l, bad, m1, s2. split; [constructor|]. auto.
  - destruct (f s) as [[v|e] s1] eqn:E.
    + specialize (IH v _ _ _ _ _ H Hx). destruct o as [w|e|x]; cbn [traced_run] in *; [exact IH| |].
      * destruct IH as [(A & B)|(r0 & m0 & s0 & l & bad & m1 & s2 & A & B)].
        -- left. split; [exact A|]. eapply th_after_ctx; eassumption.
        -- right. exists r0, m0, s0, l, bad, m1, s2. split; [eapply asks_ctx; eassumption|]. exact B.
      * destruct IH as [(A & B & m1 & s2 & C)|(r0 & m0 & s0 & l & bad & m1 & s2 & A & B)].
        -- left. split; [exact A|]. split; [exact B|]. exists m1, s2. eapply asks_ctx; eassumption.
        -- right. exists r0, m0, s0, l, bad, m1, s2. split; [eapply asks_ctx; eassumption|]. exact B.
    + inversion H; subst. left. split; [exact Hx|]. eapply th_ctx; eassumption.
Qed.

Lemma deref_traced : forall f r c s o c' s', deref eqb nodes f r c s = Some (o, c', s') ->
  c_exc c = None -> traced_ref r c s o c'.
Proof.
  induction f as [|f IH]; intros r c s o c' s' H Hx; [discriminate|].
  cbn [deref] in H. destruct (mem eqb r (c_nodes c)) eqn:Em.
  { inversion H; subst. left. apply (mem_in eqb eqb_spec) in Em. auto. }
  destruct (lookup eqb r (c_cache c)) as [w|] eqn:El.
  { inversion H; subst. exact Hx. }
  destruct (run (deref eqb nodes f) (nodes r) (push r c) s) as [[[o1 c1] s1]|] eqn:E; [|discriminate].
  pose proof (run_traced f IH _ _ _ _ _ _ E Hx) as T.
  pose proof (run_kept eqb eqb_spec nodes _ _ _ _ _ _ _ E) as (K1 & K2 & _). cbn [push c_stack c_nodes] in K1, K2.
  destruct o1 as [v|e|x]; inversion H; subst; cbn [traced_run traced_ref] in *.
  - exact T.
  - right. destruct T as [(A & B)|(r0 & m0 & s0 & l & bad & m1 & s2 & A & B & C & D & F)].
    + exists [], r, (c_cache c), s. split; [constructor|]. split; [exact El|]. cbn [pop note_exc c_exc].
      rewrite A, K2. split; [reflexivity|exact B].
    + exists (r :: l), bad, m1, s2. split; [econstructor; eassumption|]. split; [exact C|].
      cbn [pop note_exc c_exc rev push c_stack c_nodes] in *. rewrite D, <- !app_assoc. split; [reflexivity|exact F].
  - right. destruct T as [(A & B & C)|(r0 & m0 & s0 & l & bad & m1 & s2 & A & B & C & D & F)].
    + exists [], r, (c_cache c), s. split; [constructor|]. split; [exact El|]. cbn [pop note_exc c_exc].
      rewrite A, K2. split; [reflexivity|]. split; [exact B|exact C].
    + exists (r :: l), bad, m1, s2. split; [econstructor; eassumption|]. split; [exact C|].
      cbn [pop note_exc c_exc rev push c_stack c_nodes] in *. rewrite D, <- !app_assoc. split; [reflexivity|exact F].
Qed.

(** Packing or unpacking that fails reports the references that led to the failure. *)
Lemma deref_all_traced : forall f l s0 o c' s', deref_all eqb nodes f l new_ctx s0 = Some (Some o, c', s') ->
  exists root m s path bad m1 s1, In root l /\ needs eqb nodes path root m s bad m1 s1
    /\ lookup eqb bad m1 = None /\ c_exc c' = Some (rev (path ++ [bad]))
    /\ culprit eqb nodes bad m1 s1 o (rev path).
Proof.
  intros f l s0 o c' s' H.
  enough (G : forall l c s, c_nodes c = [] -> c_stack c = [] -> c_exc c = None ->
    deref_all eqb nodes f l c s = Some (Some o, c', s') ->
    exists root m s path bad m1 s1, In root l /\ needs eqb nodes path root m s bad m1 s1
    /\ lookup eqb bad m1 = None /\ c_exc c' = Some (rev (path ++ [bad]))
    /\ culprit eqb nodes bad m1 s1 o (rev path)) by (apply (G l new_ctx s0); auto).
  clear l s0 H. induction l as [|r l IH]; intros c s H1 H2 H3 H; cbn [deref_all] in H; [discriminate|].
  destruct (deref eqb nodes f r c s) as [[[o1 c1] s1]|] eqn:E; [|discriminate].
  pose proof (deref_traced _ _ _ _ _ _ _ E H3) as T.
  pose proof (deref_kept eqb eqb_spec nodes _ _ _ _ _ _ _ E) as (K1 & K2 & _).
  destruct o1 as [v|e|x].
  - cbn [traced_ref] in T. destruct (IH c1 s1 ltac:(congruence) ltac:(congruence) T H)
      as (root & m & s2 & path & bad & m1 & s3 & A & B).
    exists root, m, s2, path, bad, m1, s3. split; [right; exact A|exact B].
  - inversion H; subst. destruct T as [(A & _)|(p & bad & m1 & s2 & A & B & C & D)]; [discriminate|].
    exists r, (c_cache c), s, p, bad, m1, s2. rewrite rev_app_distr. cbn [rev app]. rewrite H1, app_nil_r in D.
    rewrite H2, app_nil_r in C. split; [left; reflexivity|]. auto.
  - inversion H; subst. destruct T as [(_ & A & _)|(p & bad & m1 & s2 & A & B & C & D)]; [rewrite H1 in A; destruct A|].
    exists r, (c_cache c), s, p, bad, m1, s2. rewrite rev_app_distr. cbn [rev app]. rewrite H1, app_nil_r in D.
    rewrite H2, app_nil_r in C. split; [left; reflexivity|]. auto.
Qed.
End Stack.
End Static.

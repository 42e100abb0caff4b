(** Steady references: ones whose value is the same in all states of a set [I] that the evaluation
    itself does not leave.  A generalisation of static references, for evaluation during one pack or
    unpack: [Post r] is something that holds of the state once [r] has been evaluated and that no
    later evaluation undoes. *)
From Verif Require Import Base RefEngine RefSpec RefProofs.
From Coq Require Import ZArith List Bool Lia.
Import ListNotations.

Section Steady.
Context {R V St : Type}.
Variable eqb : R -> R -> bool.
Hypothesis eqb_spec : forall a b, eqb a b = true <-> a = b.
Variable nodes : R -> prog R V St.
Variable I : St -> Prop.
Variable Post : R -> St -> Prop.

Definition step_ok (f : St -> res V * St) (v : V) (Q : St -> Prop) : Prop :=
  forall s, I s -> exists s', f s = (Ok v, s') /\ I s' /\ Q s' /\ forall r, Post r s -> Post r s'.

Inductive steady : R -> V -> nat -> Prop :=
| steady_intro : forall r v n, steady_prog (nodes r) v (Post r) n -> steady r v (S n)
with steady_prog : prog R V St -> V -> (St -> Prop) -> nat -> Prop :=
| sp_ret : forall v (Q : St -> Prop), (forall s, I s -> Q s) -> steady_prog (PRet v) v Q 0
| sp_ref : forall r k v n w (Q : St -> Prop) n', steady r v n -> steady_prog (k v) w (fun s => Post r s -> Q s) n' ->
    steady_prog (PRef r k) w Q (n + n')
| sp_ctx : forall f k v w Q n, step_ok f v (fun _ => True) -> steady_prog (k v) w Q n ->
    steady_prog (PCtx f k) w Q n
| sp_last : forall f v Q, step_ok f v Q -> steady_prog (PCtx f PRet) v Q 0.

Scheme steady_mut := Induction for steady Sort Prop
  with steady_prog_mut := Induction for steady_prog Sort Prop.

Lemma steady_prog_weaken p v Q n : steady_prog p v Q n -> forall Q' : St -> Prop, (forall s, Q s -> Q' s) -> steady_prog p v Q' n.
Proof.
  induction 1 as [r v n H1 IH1|v Q Hq|r k v n w Q n' H1 IH1 H2 IH2|g k v w Q n H1 H2 IH2|g v Q H1] using steady_prog_mut with (P := fun _ _ _ _ => True);
    try exact Logic.I; intros Q' HQ.
  - constructor. auto.
  - econstructor; [exact H1|]. apply IH2. auto.
  - econstructor; [exact H1|]. apply IH2. auto.
  - constructor. intros s Hs. destruct (H1 s Hs) as (s' & A & B & D & E). exists s'. auto.
Qed.

Lemma steady_det : (exists s, I s) -> forall r v n, steady r v n -> forall w m, steady r w m -> v = w /\ n = m.
Proof.
  intros [s0 Hs0] r v n H.
  induction H using steady_mut with
    (P0 := fun p v Q n _ => forall w Q' m, steady_prog p w Q' m -> v = w /\ n = m).
  - intros w m H2. inversion H2 as [? ? ? Hq]; subst. destruct (IHsteady _ _ _ Hq) as (A & B). subst. auto.
  - intros w Q' m H2. inversion H2; subst. auto.
  - intros w' Q' m H2. inversion H2 as [|? ? ? ? ? ? ? Hq1 Hq2| |]; subst.
    destruct (IHsteady _ _ Hq1) as (A & B). subst. destruct (IHsteady0 _ _ _ Hq2) as (A & B). subst. auto.
  - intros w' Q' m H2. inversion H2 as [| |? ? v2 ? ? ? Hq1 Hq2|? ? ? Hq1]; subst.
    + destruct (s s0 Hs0) as (sa & E1 & _). destruct (Hq1 s0 Hs0) as (sb & E2 & _).
      assert (v = v2) by congruence. subst. destruct (IHsteady _ _ _ Hq2) as (A & B). auto.
    + destruct (s s0 Hs0) as (sa & E1 & _). destruct (Hq1 s0 Hs0) as (sb & E2 & _).
      assert (v = w') by congruence. subst. destruct (IHsteady w' (fun _ => True) 0%nat) as (A & B).
      { constructor. auto. }
      auto.
  - intros w' Q' m H2. inversion H2 as [| |? ? v2 ? ? ? Hq1 Hq2|? ? ? Hq1]; subst.
    + destruct (s s0 Hs0) as (sa & E1 & _). destruct (Hq1 s0 Hs0) as (sb & E2 & _).
      inversion Hq2; subst. split; [congruence|reflexivity].
    + destruct (s s0 Hs0) as (sa & E1 & _). destruct (Hq1 s0 Hs0) as (sb & E2 & _). split; [congruence|reflexivity].
Qed.

Definition agrees (m : list (R * V)) (s : St) : Prop :=
  forall r v, lookup eqb r m = Some v -> Post r s /\ exists n, steady r v n.

Definition higher (N : list R) (n : nat) : Prop := forall x w m, In x N -> steady x w m -> (n < m)%nat.

Lemma agrees_state m s s' : agrees m s -> (forall r, Post r s -> Post r s') -> agrees m s'.
Proof. intros H P r v L. destruct (H r v L) as (A & B). split; auto. Qed.

Lemma deref_steady : forall f r w n, steady r w n -> forall c s o c' s',
  deref eqb nodes f r c s = Some (o, c', s') -> I s -> agrees (c_cache c) s -> higher (c_nodes c) n ->
  o = OOk w /\ I s' /\ agrees (c_cache c') s' /\ Post r s' /\ (forall x, Post x s -> Post x s').
Proof.
  induction f as [|f IH]; intros r w n H c s o c' s' D Hi Ha Hh; [discriminate|].
  cbn [deref] in D. destruct (mem eqb r (c_nodes c)) eqn:Em.
  { apply (mem_in eqb eqb_spec) in Em. pose proof (Hh r w n Em H). lia. }
  destruct (lookup eqb r (c_cache c)) as [v|] eqn:El.
  { inversion D; subst. destruct (Ha r v El) as (P & m & Hm).
    destruct (steady_det (ex_intro _ _ Hi) _ _ _ H _ _ Hm) as (E & _). subst. auto 10. }
  inversion H as [? ? k Hp]; subst.
  assert (G : forall p v Q k', steady_prog p v Q k' -> forall c s o c' s',
    run (deref eqb nodes f) p c s = Some (o, c', s') -> I s -> agrees (c_cache c) s -> higher (c_nodes c) k' ->
    o = OOk v /\ I s' /\ agrees (c_cache c') s' /\ Q s' /\ (forall x, Post x s -> Post x s')).
  { clear - IH eqb_spec. induction 1 as [r v n H1 IH1|v Q Hq|r k v n w Q n' H1 IH1 H2 IH2|g k v w Q n H1 H2 IH2|g v Q H1] using steady_prog_mut with (P := fun _ _ _ _ => True);
      try exact Logic.I; intros c s o c' s' D Hi Ha Hh; cbn [run] in D.
    - inversion D; subst. auto 10.
    - destruct (deref eqb nodes f r c s) as [[[o1 c1] s1]|] eqn:E; [|discriminate].
      assert (Hn : higher (c_nodes c) n) by (intros x w' m Hx Hs; pose proof (Hh x w' m Hx Hs); lia).
      destruct (IH r v n H1 _ _ _ _ _ E Hi Ha Hn) as (Eo & Hi1 & Ha1 & Hr1 & Hp1). subst o1.
      pose proof (deref_kept eqb eqb_spec nodes _ _ _ _ _ _ _ E) as (K & _).
      destruct (IH2 c1 s1 o c' s' D Hi1 Ha1) as (Eo & Hi2 & Ha2 & Hq2 & Hp2).
      { rewrite K. intros x w' m Hx Hs. pose proof (Hh x w' m Hx Hs). lia. }
      subst. auto 10.
    - destruct (H1 s Hi) as (s1 & E & Hi1 & _ & Hp1). rewrite E in D.
      destruct (IH2 c s1 o c' s' D Hi1 (agrees_state _ _ _ Ha Hp1) Hh) as (Eo & Hi2 & Ha2 & Hq2 & Hp2).
      subst. auto 10.
    - destruct (H1 s Hi) as (s1 & E & Hi1 & Hq & Hp1). rewrite E in D. inversion D; subst.
      split; [reflexivity|]. split; [auto|]. split; [eapply agrees_state; eauto|]. auto. }
  destruct (run (deref eqb nodes f) (nodes r) (push r c) s) as [[[o1 c1] s1]|] eqn:E; [|discriminate].
  destruct (G _ _ _ _ Hp _ _ _ _ _ E Hi Ha) as (Eo & Hi1 & Ha1 & Hq1 & Hp1).
  { cbn [push c_nodes]. intros x w' m [Hx|Hx] Hs.
    - subst x. destruct (steady_det (ex_intro _ _ Hi) _ _ _ H _ _ Hs) as (_ & E2). lia.
    - pose proof (Hh x w' m Hx Hs). lia. }
  subst o1. inversion D; subst. split; [reflexivity|]. split; [auto|]. split.
  - cbn [pop store c_cache]. intros x v Lx. cbn [lookup] in Lx.
    destruct (eqb x r) eqn:Ex.
    + apply eqb_spec in Ex. inversion Lx; subst. split; [auto|]. eauto.
    + apply Ha1; auto.
  - auto.
Qed.

End Steady.

(** References stay steady when the set of states is narrowed by something that no evaluation undoes. *)
Lemma steady_narrow {R V St} (nodes : R -> prog R V St) (I I2 J : St -> Prop) (Post : R -> St -> Prop) :
  (forall s, I2 s <-> I s /\ J s) -> (forall s s', J s -> (forall r, Post r s -> Post r s') -> J s') ->
  forall r v n, steady nodes I Post r v n -> steady nodes I2 Post r v n.
Proof.
  intros E K. assert (G : forall (f : St -> res V * St) v Q, step_ok I Post f v Q -> step_ok I2 Post f v Q).
  { intros f v Q H s Hs. apply E in Hs. destruct Hs as (H1 & H2). destruct (H s H1) as (s' & A & B & D & F). exists s'.
    split; [exact A|]. split; [apply E; split; [exact B|eapply K; eauto]|auto]. }
  apply (steady_mut nodes I Post (fun r v n _ => steady nodes I2 Post r v n) (fun p v Q n _ => steady_prog nodes I2 Post p v Q n)).
  - intros r v n _ H. now constructor.
  - intros v Q q. constructor. intros s Hs. apply E in Hs. now apply q.
  - intros r k v n w Q n' _ H1 _ H2. econstructor; eauto.
  - intros f k v w Q n H1 _ H2. econstructor; eauto.
  - intros f v Q H. constructor. auto.
Qed.

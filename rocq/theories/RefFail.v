(** Proofs: references whose evaluation raises one exception in all states of a set that the evaluation
    does not leave (compare RefSteady). *)
From Verif Require Import Base RefEngine RefSpec RefProofs RefSteady.
From Coq Require Import ZArith List Bool Lia.
Import ListNotations.

Section Fail.
Context {R V St : Type}.
Variable eqb : R -> R -> bool.
Hypothesis eqb_spec : forall a b, eqb a b = true <-> a = b.
Variable nodes : R -> prog R V St.
Variable I : St -> Prop.
Variable Post : R -> St -> Prop.
Notation steady := (steady nodes I Post).
Notation steady_prog := (steady_prog nodes I Post).

Inductive fails : R -> exn -> nat -> Prop :=
| fails_intro : forall r e n, fail_prog (nodes r) e n -> fails r e (S n)
with fail_prog : prog R V St -> exn -> nat -> Prop :=
| fp_raise : forall e, fail_prog (PRaise e) e 0
| fp_ref : forall r k v n e n', steady r v n -> fail_prog (k v) e n' -> fail_prog (PRef r k) e (n + n')
| fp_inner : forall r k e n, fails r e n -> fail_prog (PRef r k) e n
| fp_ctx : forall f k v e n, step_ok I Post f v (fun _ => True) -> fail_prog (k v) e n -> fail_prog (PCtx f k) e n
| fp_stop : forall f k e, (forall s, I s -> f s = (Err e, s)) -> fail_prog (PCtx f k) e 0.

Scheme fails_mut := Induction for fails Sort Prop
  with fail_prog_mut := Induction for fail_prog Sort Prop.

Lemma fails_unsteady : (exists s, I s) -> forall r e n, fails r e n -> forall v m, ~ steady r v m.
Proof.
  intros [s0 Hs0] r e n H.
  induction H as [r e n H IH|e|r k v n e n' H1 H2 IH2|r k e n H IH|f k v e n H1 H2 IH2|f k e H] using fails_mut
    with (P0 := fun p e n _ => forall v Q m, ~ steady_prog p v Q m).
  - intros v m S. inversion S as [? ? ? S']; subst. exact (IH _ _ _ S').
  - intros v Q m S. inversion S.
  - intros w Q m S. inversion S as [|? ? ? ? ? ? ? S1 S2| |]; subst.
    destruct (steady_det nodes I Post (ex_intro _ s0 Hs0) _ _ _ H1 _ _ S1) as (<- & _). exact (IH2 _ _ _ S2).
  - intros w Q m S. inversion S as [|? ? ? ? ? ? ? S1 S2| |]; subst. exact (IH _ _ S1).
  - intros w Q m S. destruct (H1 s0 Hs0) as (s1 & E1 & _). inversion S as [| |? ? v2 ? ? ? S1 S2|? ? ? S1]; subst; destruct (S1 s0 Hs0) as (s2 & E2 & _).
    + assert (v2 = v) by congruence. subst. exact (IH2 _ _ _ S2).
    + inversion H2.
  - intros w Q m S. pose proof (H s0 Hs0). inversion S as [| |? ? v2 ? ? ? S1 S2|? ? ? S1]; subst; destruct (S1 s0 Hs0) as (s2 & E2 & _); congruence.
Qed.

Lemma fails_det : (exists s, I s) -> forall r e n, fails r e n -> forall e' m, fails r e' m -> n = m.
Proof.
  intros Hs r e n H.
  induction H as [r e n H IH|e|r k v n e n' H1 H2 IH2|r k e n H IH|f k v e n H1 H2 IH2|f k e H] using fails_mut
    with (P0 := fun p e n _ => forall e' m, fail_prog p e' m -> n = m).
  - intros e' m F. inversion F as [? ? ? F']; subst. f_equal. eauto.
  - intros e' m F. inversion F. reflexivity.
  - intros e' m F. inversion F as [|? ? ? ? ? ? F1 F2|? ? ? ? F1| |]; subst.
    + destruct (steady_det nodes I Post Hs _ _ _ H1 _ _ F1) as (<- & <-). f_equal. eauto.
    + exfalso. exact (fails_unsteady Hs _ _ _ F1 _ _ H1).
  - intros e' m F. inversion F as [|? ? ? ? ? ? F1 F2|? ? ? ? F1| |]; subst.
    + exfalso. exact (fails_unsteady Hs _ _ _ H _ _ F1).
    + eauto.
  - intros e' m F. destruct Hs as (s0 & Hs0). destruct (H1 s0 Hs0) as (s1 & E1 & _). inversion F as [| | |? ? v2 ? ? F1 F2|? ? ? F1]; subst.
    + destruct (F1 s0 Hs0) as (s2 & E2 & _). assert (v2 = v) by congruence. subst. eauto.
    + pose proof (F1 s0 Hs0). congruence.
  - intros e' m F. destruct Hs as (s0 & Hs0). inversion F as [| | |? ? v2 ? ? F1 F2|? ? ? F1]; subst; [|reflexivity].
    destruct (F1 s0 Hs0) as (s2 & E2 & _). pose proof (H s0 Hs0). congruence.
Qed.

(** All that is being evaluated is known to fail, and later. *)
Definition failing (N : list R) (n : nat) : Prop := forall x, In x N -> exists e m, fails x e m /\ (n < m)%nat.

Lemma deref_fails : forall f r e n, fails r e n -> forall c s o c' s',
  deref eqb nodes f r c s = Some (o, c', s') -> I s -> agrees eqb nodes I Post (c_cache c) s -> failing (c_nodes c) n ->
  o = ORaise e /\ I s' /\ agrees eqb nodes I Post (c_cache c') s' /\ (forall x, Post x s -> Post x s').
Proof.
  induction f as [|f IH]; intros r e n H c s o c' s' D Hi Ha Hh; [discriminate|]. pose proof (ex_intro I s Hi) as Hex.
  cbn [deref] in D. destruct (mem eqb r (c_nodes c)) eqn:Em.
  { apply (mem_in eqb eqb_spec) in Em. destruct (Hh r Em) as (e' & m & F & L). pose proof (fails_det Hex _ _ _ H _ _ F). lia. }
  destruct (lookup eqb r (c_cache c)) as [v|] eqn:El.
  { destruct (Ha r v El) as (_ & m & S). exfalso. exact (fails_unsteady Hex _ _ _ H _ _ S). }
  assert (G : forall p e k, fail_prog p e k -> forall c s o c' s',
    run (deref eqb nodes f) p c s = Some (o, c', s') -> I s -> agrees eqb nodes I Post (c_cache c) s -> failing (c_nodes c) k ->
    o = ORaise e /\ I s' /\ agrees eqb nodes I Post (c_cache c') s' /\ (forall x, Post x s -> Post x s')).
  { clear - IH eqb_spec. intros p e k Hp. 
    induction Hp as [r e n H1 IH1|e|r k v n e n' H1 H2 IH2|r k e n H1 IH1|g k v e n H1 H2 IH2|g k e H1] using fail_prog_mut with (P := fun _ _ _ _ => True);
      try exact Logic.I; intros c s o c' s' D Hi Ha Hh; cbn [run] in D.
    - inversion D; subst. auto 10.
    - destruct (deref eqb nodes f r c s) as [[[o1 c1] s1]|] eqn:E; [|discriminate].
      destruct (deref_steady eqb eqb_spec nodes I Post f r v n H1 _ _ _ _ _ E Hi Ha) as (-> & Hi1 & Ha1 & _ & Hp1).
      { intros x w m Hx S. destruct (Hh x Hx) as (e' & m' & F & _). exfalso. exact (fails_unsteady (ex_intro _ s Hi) _ _ _ F _ _ S). }
      pose proof (deref_kept eqb eqb_spec nodes _ _ _ _ _ _ _ E) as (K & _).
      destruct (IH2 c1 s1 o c' s' D Hi1 Ha1) as (Eo & Hi2 & Ha2 & Hp2).
      { rewrite K. intros x Hx. destruct (Hh x Hx) as (e' & m' & F & L). exists e', m'. split; [exact F|lia]. }
      subst. auto 10.
    - destruct (deref eqb nodes f r c s) as [[[o1 c1] s1]|] eqn:E; [|discriminate].
      destruct (IH r e n H1 _ _ _ _ _ E Hi Ha Hh) as (-> & Hi1 & Ha1 & Hp1). inversion D; subst. auto 10.
    - destruct (H1 s Hi) as (s1 & E & Hi1 & _ & Hp1). rewrite E in D.
      destruct (IH2 c s1 o c' s' D Hi1 (agrees_state eqb nodes I Post _ _ _ Ha Hp1) Hh) as (Eo & Hi2 & Ha2 & Hp2). subst. auto 10.
    - rewrite (H1 s Hi) in D. inversion D; subst. auto 10. }
  inversion H as [? ? k Hp]; subst.
  destruct (run (deref eqb nodes f) (nodes r) (push r c) s) as [[[o1 c1] s1]|] eqn:E; [|discriminate].
  destruct (G _ _ _ Hp _ _ _ _ _ E Hi Ha) as (-> & Hi1 & Ha1 & Hp1).
  { cbn [push c_nodes]. intros x [<-|Hx]; [exists e, (S k); split; [exact H|lia]|]. destruct (Hh x Hx) as (e' & m' & F & L). exists e', m'. split; [exact F|lia]. }
  inversion D; subst. auto 10.
Qed.
End Fail.

(** Proofs about the reference engine. *)
From Verif Require Import Base RefEngine RefSpec.
From Coq Require Import ZArith List Bool Lia.
Import ListNotations.

Section Proofs.
Context {R V St : Type}.
Variable eqb : R -> R -> bool.
Hypothesis eqb_spec : forall a b, eqb a b = true <-> a = b.
Variable nodes : R -> prog R V St.

Notation eval := (eval eqb nodes).
Notation exec := (exec eqb nodes).
Notation asks := (asks eqb nodes).
Notation needs := (needs eqb nodes).
Notation deref := (deref eqb nodes).
Notation lookup := (lookup (V := V) eqb).
Notation ctx := (ctx R V).

Lemma eqb_refl : forall r, eqb r r = true.
Proof. intros r. apply eqb_spec. reflexivity. Qed.

Lemma eqb_ne : forall a b, a <> b -> eqb a b = false.
Proof. intros a b H. destruct (eqb a b) eqn:E; [apply eqb_spec in E; contradiction|reflexivity]. Qed.

Lemma mem_in : forall r l, mem eqb r l = true <-> In r l.
Proof.
  intros r l. unfold mem. rewrite existsb_exists. split.
  - intros (x & Hx & E). apply eqb_spec in E. subst. exact Hx.
  - intros H. exists r. split; [exact H|apply eqb_refl].
Qed.

Lemma mem_not : forall r l, mem eqb r l = false <-> ~ In r l.
Proof. intros r l. rewrite <- mem_in. destruct (mem eqb r l); split; intros; congruence. Qed.

Lemma lookup_cons_same : forall r v m, lookup r ((r, v) :: m) = Some v.
Proof. intros. cbn. rewrite eqb_refl. reflexivity. Qed.

Lemma lookup_cons_other : forall r x v m, r <> x -> lookup r ((x, v) :: m) = lookup r m.
Proof. intros. cbn. rewrite eqb_ne by assumption. reflexivity. Qed.

Lemma remove1_head : forall r l, remove1 eqb r (r :: l) = l.
Proof. intros. cbn. rewrite eqb_refl. reflexivity. Qed.

Lemma extends_refl : forall m, extends (V := V) eqb m m.
Proof. intros m r v H. exact H. Qed.

Lemma extends_trans : forall a b c, extends (V := V) eqb a b -> extends eqb b c -> extends eqb a c.
Proof. intros a b c H1 H2 r v H. apply H2, H1, H. Qed.

Lemma extends_cons : forall r v m, lookup r m = None -> extends eqb m ((r, v) :: m).
Proof.
  intros r v m H x w Hx. destruct (eqb x r) eqn:E.
  - apply eqb_spec in E. subst. congruence.
  - cbn. rewrite E. exact Hx.
Qed.

(** ** A generic invariant of evaluation *)
Lemma run_inv : forall (Q : ctx -> ctx -> Prop) (d : R -> ctx -> St -> option (outcome R V * ctx * St)),
  (forall c, Q c c) -> (forall a b c, Q a b -> Q b c -> Q a c) ->
  (forall r c s o c' s', d r c s = Some (o, c', s') -> Q c c') ->
  forall p c s o c' s', run d p c s = Some (o, c', s') -> Q c c'.
Proof.
  intros Q d Hr Ht Hd. induction p as [v|e|r k IH|f k IH]; intros c s o c' s' H; cbn [run] in H.
  - inversion H; subst. apply Hr.
  - inversion H; subst. apply Hr.
  - destruct (d r c s) as [[[o1 c1] s1]|] eqn:E; [|discriminate]. pose proof (Hd _ _ _ _ _ _ E) as Q1.
    destruct o1; [eapply Ht; [exact Q1|eapply IH; exact H]| |]; inversion H; subst; exact Q1.
  - destruct (f s) as [[v|e] s1]; [eapply IH; exact H|]. inversion H; subst. apply Hr.
Qed.

(** What an evaluation preserves: the references under evaluation, and everything known. *)
Definition kept (c c' : ctx) : Prop :=
  c_nodes c' = c_nodes c /\ c_stack c' = c_stack c /\ extends eqb (c_cache c) (c_cache c')
  /\ (forall x, In x (c_nodes c) -> lookup x (c_cache c') = lookup x (c_cache c))
  /\ (forall l, c_exc c = Some l -> c_exc c' = Some l).

Lemma kept_refl : forall c, kept c c.
Proof. intros c. repeat split; auto. apply extends_refl. Qed.

Lemma kept_trans : forall a b c, kept a b -> kept b c -> kept a c.
Proof.
  intros a b c (A1 & A2 & A3 & A4 & A5) (B1 & B2 & B3 & B4 & B5). unfold kept. rewrite B1, B2.
  split; [exact A1|]. split; [exact A2|]. split; [eapply extends_trans; eassumption|]. split.
  - intros x Hx. rewrite B4; [apply A4, Hx|]. rewrite A1. exact Hx.
  - intros l Hl. apply B5, A5, Hl.
Qed.

Lemma deref_kept : forall n r c s o c' s', deref n r c s = Some (o, c', s') -> kept c c'.
Proof.
  induction n as [|n IH]; intros r c s o c' s' H; [discriminate|].
  cbn [RefEngine.deref] in H. destruct (mem eqb r (c_nodes c)) eqn:Em.
  { inversion H; subst. apply kept_refl. }
  destruct (lookup r (c_cache c)) as [v|] eqn:El.
  { inversion H; subst. apply kept_refl. }
  apply mem_not in Em.
  destruct (run (deref n) (nodes r) (push r c) s) as [[[o1 c1] s1]|] eqn:E; [|discriminate].
  pose proof (run_inv kept (deref n) kept_refl kept_trans IH _ _ _ _ _ _ E) as (K1 & K2 & K3 & K4 & K5).
  cbn [push c_cache c_nodes c_stack c_exc] in K1, K2, K3, K4, K5.
  assert (Hr : lookup r (c_cache c1) = None) by (rewrite K4; [exact El|left; reflexivity]).
  destruct o1 as [v|e|x].
  - inversion H; subst. unfold kept, pop, store.
    cbn [c_cache c_nodes c_stack c_exc]. rewrite K1, K2, remove1_head. cbn [tl].
    repeat split; auto.
    + eapply extends_trans; [exact K3|apply extends_cons, Hr].
    + intros y Hy. rewrite lookup_cons_other by (intros ->; contradiction). apply K4. right. exact Hy.
  - inversion H; subst. unfold kept, pop, note_exc.
    cbn [c_cache c_nodes c_stack c_exc]. rewrite K1, K2, remove1_head. cbn [tl].
    repeat split; auto.
    + intros y Hy. apply K4. right. exact Hy.
    + intros l Hl. rewrite (K5 _ Hl). reflexivity.
  - inversion H; subst. unfold kept, pop, note_exc.
    cbn [c_cache c_nodes c_stack c_exc]. rewrite K1, K2, remove1_head. cbn [tl].
    repeat split; auto.
    + intros y Hy. apply K4. right. exact Hy.
    + intros l Hl. rewrite (K5 _ Hl). reflexivity.
Qed.

Lemma run_kept : forall n p c s o c' s', run (deref n) p c s = Some (o, c', s') -> kept c c'.
Proof. intros n. exact (run_inv kept (deref n) kept_refl kept_trans (deref_kept n)). Qed.

(** ** Termination *)
Lemma run_total : forall U n N,
  (forall r c s, In r U -> c_nodes c = N -> deref n r c s <> None) ->
  forall p, refs_in U p -> forall c s, c_nodes c = N -> run (deref n) p c s <> None.
Proof.
  intros U n N Hd. induction p as [v|e|r k IH|f k IH]; intros Hp c s Hc; cbn [run]; try discriminate.
  - inversion Hp as [| |? ? Hr Hk|]; subst.
    destruct (deref n r c s) as [[[o1 c1] s1]|] eqn:E; [|exfalso; exact (Hd r c s Hr eq_refl E)].
    destruct o1; try discriminate. apply IH; [apply Hk|].
    destruct (deref_kept _ _ _ _ _ _ _ E) as (K & _). exact K.
  - inversion Hp as [| | |? ? Hk]; subst. destruct (f s) as [[v|e] s1]; [|discriminate].
    apply IH; [apply Hk|reflexivity].
Qed.

Lemma deref_total : forall U, finite_graph nodes U -> forall n r c s,
  In r U -> NoDup (c_nodes c) -> incl (c_nodes c) U -> (length U < n + length (c_nodes c))%nat ->
  deref n r c s <> None.
Proof.
  intros U HU. induction n as [|n IH]; intros r c s Hr Hnd Hincl Hn.
  { pose proof (NoDup_incl_length Hnd Hincl). lia. }
  cbn [RefEngine.deref]. destruct (mem eqb r (c_nodes c)) eqn:Em; [discriminate|].
  destruct (lookup r (c_cache c)); [discriminate|]. apply mem_not in Em.
  assert (T : run (deref n) (nodes r) (push r c) s <> None).
  { apply (run_total U n (r :: c_nodes c)).
    - intros r' c' s' Hr' Hc'. apply IH; rewrite ?Hc'; auto.
      + constructor; assumption.
      + intros x [->|Hx]; auto.
      + cbn [length]. lia.
    - apply HU, Hr.
    - reflexivity. }
  destruct (run (deref n) (nodes r) (push r c) s) as [[[[v|e|x] c1] s1]|]; congruence.
Qed.

Lemma run_more : forall n m, (forall r c s x, deref n r c s = Some x -> deref m r c s = Some x) ->
  forall p c s x, run (deref n) p c s = Some x -> run (deref m) p c s = Some x.
Proof.
  intros n m Hd. induction p as [v|e|r k IH|f k IH]; intros c s x H; cbn [run] in *; auto.
  - destruct (deref n r c s) as [[[o1 c1] s1]|] eqn:E; [|discriminate]. rewrite (Hd _ _ _ _ E).
    destruct o1; auto.
  - destruct (f s) as [[v|e] s1]; auto.
Qed.

Lemma deref_more : forall n m, (n <= m)%nat -> forall r c s x,
  deref n r c s = Some x -> deref m r c s = Some x.
Proof.
  induction n as [|n IH]; intros m Hm r c s x H; [discriminate|]. destruct m as [|m]; [lia|].
  cbn [RefEngine.deref] in *. destruct (mem eqb r (c_nodes c)); [exact H|].
  destruct (lookup r (c_cache c)); [exact H|].
  destruct (run (deref n) (nodes r) (push r c) s) as [y|] eqn:E; [|discriminate].
  rewrite (run_more n m (fun r c s x H0 => IH m ltac:(lia) r c s x H0) _ _ _ _ E). exact H.
Qed.

(** ** Soundness with respect to plain evaluation *)
Definition sound_ref (r : R) (c : ctx) (s : St) (o : outcome R V) (c' : ctx) (s' : St) : Prop :=
  match o with
  | OOk v => eval r (c_cache c) s (Ok v) (c_cache c') s'
  | ORaise e => eval r (c_cache c) s (Err e) (c_cache c') s'
  | OCyclic r' => exists l m1 s1, needs l r (c_cache c) s r' m1 s1 /\ (In r' (c_nodes c) \/ In r' l)
  end.

Definition sound_run (p : prog R V St) (c : ctx) (s : St) (o : outcome R V) (c' : ctx) (s' : St) : Prop :=
  match o with
  | OOk v => exec p (c_cache c) s (Ok v) (c_cache c') s'
  | ORaise e => exec p (c_cache c) s (Err e) (c_cache c') s'
  | OCyclic r' => exists r0 m0 s0 l m1 s1, asks p (c_cache c) s r0 m0 s0
                  /\ needs l r0 m0 s0 r' m1 s1 /\ (In r' (c_nodes c) \/ In r' l)
  end.

Lemma run_sound : forall n,
  (forall r c s o c' s', deref n r c s = Some (o, c', s') -> sound_ref r c s o c' s') ->
  forall p c s o c' s', run (deref n) p c s = Some (o, c', s') -> sound_run p c s o c' s'.
Proof.
  intros n Hd. induction p as [v|e|r k IH|f k IH]; intros c s o c' s' H; cbn [run] in H.
  - inversion H; subst. cbn. constructor.
  - inversion H; subst. cbn. constructor.
  - destruct (deref n r c s) as [[[o1 c1] s1]|] eqn:E; [|discriminate].
    pose proof (Hd _ _ _ _ _ _ E) as S1. destruct (deref_kept _ _ _ _ _ _ _ E) as (K & _).
    destruct o1 as [v|e|x]; cbn [sound_ref] in S1.
    + specialize (IH v _ _ _ _ _ H). destruct o as [w|e|x]; cbn [sound_run] in *.
      * eapply exec_ref; eassumption.
      * eapply exec_ref; eassumption.
      * destruct IH as (r0 & m0 & s0 & l & m1 & s2 & A & B & C). rewrite K in C.
        exists r0, m0, s0, l, m1, s2. split; [eapply asks_after; eassumption|]. split; assumption.
    + inversion H; subst. cbn [sound_run]. eapply exec_ref_raise; eassumption.
    + inversion H; subst. cbn [sound_run]. destruct S1 as (l & m1 & s2 & B & C).
      exists r, (c_cache c), s, l, m1, s2. split; [constructor|]. split; assumption.
  - destruct (f s) as [[v|e] s1] eqn:E.
    + specialize (IH v _ _ _ _ _ H). destruct o as [w|e|x]; cbn [sound_run] in *.
      * eapply exec_ctx; eassumption.
      * eapply exec_ctx; eassumption.
      * destruct IH as (r0 & m0 & s0 & l & m1 & s2 & A & B & C).
        exists r0, m0, s0, l, m1, s2. split; [eapply asks_ctx; eassumption|]. split; assumption.
    + inversion H; subst. cbn [sound_run]. eapply exec_ctx_raise; eassumption.
Qed.

Lemma deref_sound : forall n r c s o c' s',
  deref n r c s = Some (o, c', s') -> sound_ref r c s o c' s'.
Proof.
  induction n as [|n IH]; intros r c s o c' s' H; [discriminate|].
  cbn [RefEngine.deref] in H. destruct (mem eqb r (c_nodes c)) eqn:Em.
  { inversion H; subst. apply mem_in in Em. cbn. exists [], (c_cache c'), s'. split; [constructor|left; exact Em]. }
  destruct (lookup r (c_cache c)) as [v|] eqn:El.
  { inversion H; subst. cbn. constructor. exact El. }
  destruct (run (deref n) (nodes r) (push r c) s) as [[[o1 c1] s1]|] eqn:E; [|discriminate].
  pose proof (run_sound n IH _ _ _ _ _ _ E) as S1.
  destruct o1 as [v|e|x]; inversion H; subst; cbn [sound_run push c_cache c_nodes pop store note_exc sound_ref] in *.
  - apply eval_new; assumption.
  - apply eval_raise; assumption.
  - destruct S1 as (r0 & m0 & s0 & l & m1 & s2 & A & B & C).
    exists (r :: l), m1, s2. split; [eapply needs_step; eassumption|].
    destruct C as [[->|C]|C]; [right; left; reflexivity|left; exact C|right; right; exact C].
Qed.

(** ** Plain evaluation is deterministic *)
Scheme eval_mut := Induction for RefSpec.eval Sort Prop
  with exec_mut := Induction for RefSpec.exec Sort Prop.

Lemma eval_det : forall r m s x m' s', eval r m s x m' s' ->
  forall y m2 s2, eval r m s y m2 s2 -> x = y /\ m' = m2 /\ s' = s2.
Proof.
  intros r m s x m' s' H.
  induction H using eval_mut with
    (P0 := fun p m s x m' s' _ => forall y m2 s2, exec p m s y m2 s2 -> x = y /\ m' = m2 /\ s' = s2).
  - intros y m2 s2 H2. inversion H2; subst; try congruence. split; [congruence|split; reflexivity].
  - intros y m2 s2 H2. inversion H2; subst; try congruence.
    + match goal with [HE : exec _ _ _ _ _ _ |- _] => destruct (IHeval _ _ _ HE) as (A & B & C) end.
      inversion A; subst. auto.
    + match goal with [HE : exec _ _ _ (Err _) _ _ |- _] => destruct (IHeval _ _ _ HE) as (A & B & C) end.
      discriminate.
  - intros y m2 s2 H2. inversion H2; subst; try congruence.
    + match goal with [HE : exec _ _ _ (Ok _) _ _ |- _] => destruct (IHeval _ _ _ HE) as (A & B & C) end.
      discriminate.
    + match goal with [HE : exec _ _ _ _ _ _ |- _] => destruct (IHeval _ _ _ HE) as (A & B & C) end.
      inversion A; subst. auto.
  - intros y m2 s2 H2. inversion H2; subst. auto.
  - intros y m2 s2 H2. inversion H2; subst. auto.
  - intros y m2 s2 H2. inversion H2; subst.
    + match goal with [HE : eval _ _ _ _ _ _ |- _] => destruct (IHeval _ _ _ HE) as (A & B & C) end.
      inversion A; subst. eapply IHeval0; eassumption.
    + match goal with [HE : eval _ _ _ (Err _) _ _ |- _] => destruct (IHeval _ _ _ HE) as (A & B & C) end.
      discriminate.
  - intros y m2 s2 H2. inversion H2; subst.
    + match goal with [HE : eval _ _ _ (Ok _) _ _ |- _] => destruct (IHeval _ _ _ HE) as (A & B & C) end.
      discriminate.
    + match goal with [HE : eval _ _ _ _ _ _ |- _] => destruct (IHeval _ _ _ HE) as (A & B & C) end.
      auto.
  - intros y m2 s2 H2. inversion H2; subst; match goal with [HE : f s = _, HF : f s = _ |- _] => rewrite HE in HF; inversion HF; subst end.
    eapply IHeval; eassumption.
  - intros y m2 s2 H2. inversion H2; subst; match goal with [HE : f s = _, HF : f s = _ |- _] => rewrite HE in HF; inversion HF; subst end.
    auto.
Qed.

(** ** A cyclic error is raised only, and always, when evaluation needs its own result *)
Definition not_cyclic (o : outcome R V) : Prop := match o with OCyclic _ => False | _ => True end.

Lemma asks_run : forall n p m s r1 m1 s1, asks p m s r1 m1 s1 ->
  forall c o c' s', c_cache c = m -> run (deref n) p c s = Some (o, c', s') -> not_cyclic o ->
  exists c1 o1 c2 s2, deref n r1 c1 s1 = Some (o1, c2, s2) /\ not_cyclic o1
    /\ c_cache c1 = m1 /\ c_nodes c1 = c_nodes c.
Proof.
  intros n p m s r1 m1 s1 H. induction H as [r k m s|r k m s v m1 s1 r' m' s' He Ha IH|f k m s v s1 r' m' s' Hf Ha IH];
    intros c o c' s'' Hc H Ho; cbn [run] in H.
  - destruct (deref n r c s) as [[[o1 c1] s1]|] eqn:E; [|discriminate].
    exists c, o1, c1, s1. split; [exact E|]. split; [|split; [exact Hc|reflexivity]].
    destruct o1; cbn; auto. inversion H; subst. exact Ho.
  - destruct (deref n r c s) as [[[o1 c1] s2]|] eqn:E; [|discriminate].
    pose proof (deref_sound _ _ _ _ _ _ _ E) as S1. destruct (deref_kept _ _ _ _ _ _ _ E) as (K & _).
    rewrite <- Hc in He. destruct o1 as [w|e|x]; cbn [sound_ref] in S1.
    + destruct (eval_det _ _ _ _ _ _ He _ _ _ S1) as (A & B & C). inversion A; subst w; subst m1 s1.
      destruct (IH c1 o c' s'' eq_refl H Ho) as (c3 & o3 & c4 & s4 & P1 & P2 & P3 & P4).
      exists c3, o3, c4, s4. rewrite K in P4. auto.
    + destruct (eval_det _ _ _ _ _ _ He _ _ _ S1) as (A & _). discriminate.
    + inversion H; subst. contradiction.
  - rewrite Hf in H. exact (IH c o c' s'' Hc H Ho).
Qed.

Lemma needs_deref : forall l r m s r' m' s', needs l r m s r' m' s' ->
  forall n c o c1 s1, c_cache c = m -> deref n r c s = Some (o, c1, s1) -> not_cyclic o ->
  exists n2 c2 o2 c3 s3, deref n2 r' c2 s' = Some (o2, c3, s3) /\ not_cyclic o2
    /\ c_cache c2 = m' /\ c_nodes c2 = rev l ++ c_nodes c.
Proof.
  intros l r m s r' m' s' H. induction H as [r m s|r m s r1 m1 s1 l r' m' s' Hl Ha Hn IH];
    intros n c o c1 s1' Hc H Ho.
  - exists n, c, o, c1, s1'. repeat split; auto.
  - destruct n as [|n]; [discriminate|]. cbn [RefEngine.deref] in H.
    destruct (mem eqb r (c_nodes c)); [inversion H; subst; contradiction|].
    rewrite Hc, Hl in H.
    destruct (run (deref n) (nodes r) (push r c) s) as [[[o2 c2] s2]|] eqn:E; [|discriminate].
    assert (Ho2 : not_cyclic o2) by (destruct o2; cbn; auto; inversion H; subst; exact Ho).
    destruct (asks_run n _ _ _ _ _ _ Ha (push r c) _ _ _ Hc E Ho2) as (c3 & o3 & c4 & s4 & P1 & P2 & P3 & P4).
    destruct (IH n c3 o3 c4 s4 P3 P1 P2) as (n5 & c5 & o5 & c6 & s6 & Q1 & Q2 & Q3 & Q4).
    exists n5, c5, o5, c6, s6. repeat split; auto. rewrite Q4, P4. cbn [push c_nodes rev].
    rewrite <- app_assoc. reflexivity.
Qed.

Lemma deref_no_loop : forall n r c s o c1 s1, deref n r c s = Some (o, c1, s1) -> not_cyclic o ->
  ~ loops eqb nodes r (c_cache c) s.
Proof.
  intros n r c s o c1 s1 H Ho (l & r' & m' & s' & Hn & Hin).
  destruct (needs_deref _ _ _ _ _ _ _ Hn n c o c1 s1 eq_refl H Ho) as (n2 & c2 & o2 & c3 & s3 & P1 & P2 & P3 & P4).
  destruct n2 as [|n2]; [discriminate|]. cbn [RefEngine.deref] in P1.
  assert (M : mem eqb r' (c_nodes c2) = true).
  { apply mem_in. rewrite P4. apply in_or_app. left. apply -> in_rev. exact Hin. }
  rewrite M in P1. inversion P1; subst. exact P2.
Qed.

(** Evaluation from the outside: no reference is under evaluation. *)
Lemma deref_cyclic_iff : forall n r c s o c1 s1, c_nodes c = [] -> deref n r c s = Some (o, c1, s1) ->
  ((exists r', o = OCyclic r') <-> loops eqb nodes r (c_cache c) s).
Proof.
  intros n r c s o c1 s1 Hc H. split.
  - intros (r' & ->). pose proof (deref_sound _ _ _ _ _ _ _ H) as (l & m1 & s2 & B & C).
    rewrite Hc in C. destruct C as [[]|C]. exists l, r', m1, s2. split; assumption.
  - intros L. destruct o as [v|e|r']; [exfalso|exfalso|exists r'; reflexivity];
      exact (deref_no_loop _ _ _ _ _ _ _ H I L).
Qed.

Lemma deref_complete : forall U n r c s x m' s', finite_graph nodes U -> In r U -> (length U < n)%nat ->
  c_nodes c = [] -> eval r (c_cache c) s x m' s' -> ~ loops eqb nodes r (c_cache c) s ->
  exists c', deref n r c s = Some (match x with Ok v => OOk v | Err e => ORaise e end, c', s')
    /\ c_cache c' = m' /\ c_nodes c' = [].
Proof.
  intros U n r c s x m' s' HU Hr Hn Hc He Hl.
  pose proof (deref_total U HU n r c s Hr) as T. rewrite Hc in T.
  specialize (T (NoDup_nil _) (incl_nil_l _)). cbn [length] in T. specialize (T ltac:(lia)).
  destruct (deref n r c s) as [[[o c'] s2]|] eqn:E; [|congruence].
  pose proof (deref_sound _ _ _ _ _ _ _ E) as S1. destruct (deref_kept _ _ _ _ _ _ _ E) as (K & _).
  destruct o as [v|e|r']; cbn [sound_ref] in S1.
  - destruct (eval_det _ _ _ _ _ _ He _ _ _ S1) as (A & B & C). subst. exists c'. rewrite K. auto.
  - destruct (eval_det _ _ _ _ _ _ He _ _ _ S1) as (A & B & C). subst. exists c'. rewrite K. auto.
  - exfalso. apply Hl. apply (proj1 (deref_cyclic_iff _ _ _ _ _ _ _ Hc E)). exists r'. reflexivity.
Qed.

(** Without any cycle between references, no cyclic error. *)
Lemma asks_mentions : forall p m s r m' s', asks p m s r m' s' -> mentions p r.
Proof. intros p m s r m' s' H. induction H; [constructor|econstructor; eassumption|econstructor; eassumption]. Qed.

Lemma needs_rank : forall (rank : R -> nat), (forall r r', mentions (nodes r) r' -> (rank r' < rank r)%nat) ->
  forall l r m s r' m' s', needs l r m s r' m' s' -> forall x, In x l -> (rank r' < rank x)%nat.
Proof.
  intros rank Hk l r m s r' m' s' H. induction H as [r m s|r m s r1 m1 s1 l r' m' s' Hl Ha Hn IH]; intros x Hx.
  - destruct Hx.
  - pose proof (Hk _ _ (asks_mentions _ _ _ _ _ _ Ha)) as Hr1. destruct Hx as [->|Hx]; [|apply IH, Hx].
    destruct Hn as [r1 m1 s1|r1 m1 s1 r2 m2 s2 l r' m' s' Hl' Ha' Hn']; [exact Hr1|].
    specialize (IH r1 (or_introl eq_refl)). lia.
Qed.

Lemma acyclic_no_loop : forall rank : R -> nat,
  (forall r r', mentions (nodes r) r' -> (rank r' < rank r)%nat) ->
  forall r m s, ~ loops eqb nodes r m s.
Proof.
  intros rank Hk r m s (l & r' & m' & s' & Hn & Hin).
  pose proof (needs_rank rank Hk _ _ _ _ _ _ _ Hn r' Hin). lia.
Qed.

(** ** Every reference is evaluated at most once *)
Definition logged (c : ctx) : Prop :=
  NoDup (starts (c_log c))
  /\ (forall r, In r (starts (c_log c)) -> In r (c_nodes c) \/ lookup r (c_cache c) <> None)
  /\ (forall r v, lookup r (c_cache c) = Some v <-> In (EDone r v) (c_log c))
  /\ (forall r, lookup r (c_cache c) <> None -> In r (starts (c_log c)))
  /\ (forall r, In r (c_nodes c) -> In r (starts (c_log c))).

(** After a failure only the first and the third part remain. *)
Definition once (o : outcome R V) (c : ctx) : Prop :=
  match o with
  | OOk _ => logged c
  | _ => NoDup (starts (c_log c)) /\ (forall r v, lookup r (c_cache c) = Some v <-> In (EDone r v) (c_log c))
  end.

Lemma run_once : forall n,
  (forall r c s o c' s', deref n r c s = Some (o, c', s') -> logged c -> once o c') ->
  forall p c s o c' s', run (deref n) p c s = Some (o, c', s') -> logged c -> once o c'.
Proof.
  intros n Hd. induction p as [v|e|r k IH|f k IH]; intros c s o c' s' H Hc; cbn [run] in H.
  - inversion H; subst. exact Hc.
  - inversion H; subst. destruct Hc as (A & B & C & D). cbn. auto.
  - destruct (deref n r c s) as [[[o1 c1] s1]|] eqn:E; [|discriminate].
    pose proof (Hd _ _ _ _ _ _ E Hc) as Hc1.
    destruct o1 as [v|e|x]; [eapply IH; eassumption| |]; inversion H; subst; exact Hc1.
  - destruct (f s) as [[v|e] s1]; [eapply IH; eassumption|]. inversion H; subst.
    destruct Hc as (A & B & C & D). cbn. auto.
Qed.

Lemma deref_once : forall n r c s o c' s',
  deref n r c s = Some (o, c', s') -> logged c -> once o c'.
Proof.
  induction n as [|n IH]; intros r c s o c' s' H Hc; [discriminate|].
  cbn [RefEngine.deref] in H. destruct (mem eqb r (c_nodes c)) eqn:Em.
  { inversion H; subst. destruct Hc as (A & B & C & D & D'). cbn. auto. }
  destruct (lookup r (c_cache c)) as [v|] eqn:El.
  { inversion H; subst. exact Hc. }
  apply mem_not in Em.
  destruct (run (deref n) (nodes r) (push r c) s) as [[[o1 c1] s1]|] eqn:E; [|discriminate].
  assert (Hp : logged (push r c)).
  { destruct Hc as (A & B & C & D & D'). unfold logged, push, starts. cbn [c_log c_nodes c_cache flat_map app].
    fold (starts (c_log c)).
    split; [constructor; [intros Hin; destruct (B r Hin) as [Hin2|Hn]; [contradiction|congruence]|exact A]|].
    split; [intros x [->|Hx]; [left; left; reflexivity|destruct (B x Hx); [left; right; assumption|right; assumption]]|].
    split; [|split].
    - intros x v. split.
      + intros Hx. right. apply C. exact Hx.
      + intros [Hx|Hx]; [discriminate|]. apply C. exact Hx.
    - intros x Hx. right. apply D, Hx.
    - intros x [->|Hx]; [left; reflexivity|right; apply D', Hx]. }
  pose proof (run_once n IH _ _ _ _ _ _ E Hp) as H1.
  destruct (run_kept _ _ _ _ _ _ _ E) as (K1 & K2 & K3 & K4 & K5). cbn [push c_nodes c_cache] in K1, K4.
  assert (Hr : lookup r (c_cache c1) = None) by (rewrite K4; [exact El|left; reflexivity]).
  destruct o1 as [v|e|x]; inversion H; subst; cbn [once] in *.
  - destruct H1 as (A & B & C & D & D'). unfold logged, pop, store, starts. cbn [c_log c_nodes c_cache flat_map app].
    fold (starts (c_log c1)). rewrite K1, remove1_head in *.
    split; [exact A|]. split; [|split; [|split]].
    + intros x Hx. destruct (B x Hx) as [[->|Hn]|Hn].
      * right. rewrite lookup_cons_same. discriminate.
      * left. exact Hn.
      * right. destruct (eqb x r) eqn:Ex; cbn; rewrite Ex; [discriminate|exact Hn].
    + intros x w. destruct (eqb x r) eqn:Ex.
      * apply eqb_spec in Ex. subst x. rewrite lookup_cons_same. split.
        -- intros Hw. inversion Hw; subst. left. reflexivity.
        -- intros [Hw|Hw]; [inversion Hw; subst; reflexivity|]. apply C in Hw. congruence.
      * cbn. rewrite Ex. rewrite C. split; [intros Hw; right; exact Hw|].
        intros [Hw|Hw]; [inversion Hw; subst; rewrite eqb_refl in Ex; discriminate|exact Hw].
    + intros x Hx. destruct (eqb x r) eqn:Ex.
      * apply eqb_spec in Ex. subst x. apply D'. left. reflexivity.
      * cbn in Hx. rewrite Ex in Hx. apply D, Hx.
    + intros x Hx. apply D'. right. exact Hx.
  - destruct H1 as (A & C). unfold pop, note_exc, starts. cbn [c_log c_cache flat_map app].
    split; [exact A|]. intros x w. rewrite C. split; [intros Hw; right; exact Hw|intros [Hw|Hw]; [discriminate|exact Hw]].
  - destruct H1 as (A & C). unfold pop, note_exc, starts. cbn [c_log c_cache flat_map app].
    split; [exact A|]. intros y w. rewrite C. split; [intros Hw; right; exact Hw|intros [Hw|Hw]; [discriminate|exact Hw]].
Qed.

Lemma logged_new : logged new_ctx.
Proof.
  unfold logged, new_ctx. cbn. split; [constructor|]. split; [intros r []|]. split; [|split].
  - intros r v. split; [discriminate|intros []].
  - intros r H. congruence.
  - intros r [].
Qed.

Lemma deref_all_once : forall n l c s o c' s', deref_all eqb nodes n l c s = Some (o, c', s') -> logged c ->
  c_nodes c = [] ->
  NoDup (starts (c_log c')) /\ (forall r v, lookup r (c_cache c') = Some v <-> In (EDone r v) (c_log c'))
  /\ c_nodes c' = [] /\ c_stack c' = c_stack c /\ extends eqb (c_cache c) (c_cache c')
  /\ (o = None -> logged c').
Proof.
  intros n. induction l as [|r l IH]; intros c s o c' s' H Hc Hn; cbn [deref_all] in H.
  - inversion H; subst. pose proof Hc as (A & B & C & D). split; [exact A|]. split; [exact C|]. split; [exact Hn|].
    split; [reflexivity|]. split; [apply extends_refl|intros _; exact Hc].
  - destruct (deref n r c s) as [[[o1 c1] s1]|] eqn:E; [|discriminate].
    pose proof (deref_once _ _ _ _ _ _ _ E Hc) as H1. destruct (deref_kept _ _ _ _ _ _ _ E) as (K1 & K2 & K3 & _).
    destruct o1 as [v|e|x].
    + cbn [once] in H1. destruct (IH c1 s1 o c' s' H H1 ltac:(congruence)) as (P1 & P2 & P3 & P4 & P5 & P6).
      split; [exact P1|]. split; [exact P2|]. split; [exact P3|]. split; [congruence|].
      split; [eapply extends_trans; eassumption|exact P6].
    + inversion H; subst. destruct H1 as (A & C). split; [exact A|]. split; [exact C|]. split; [congruence|].
      split; [congruence|]. split; [exact K3|discriminate].
    + inversion H; subst. destruct H1 as (A & C). split; [exact A|]. split; [exact C|]. split; [congruence|].
      split; [congruence|]. split; [exact K3|discriminate].
Qed.

(** A value obtained once is obtained again, without evaluating anything. *)
Lemma deref_value_cached : forall n r c s v c' s', deref n r c s = Some (OOk v, c', s') ->
  lookup r (c_cache c') = Some v.
Proof.
  intros [|n] r c s v c' s' H; [discriminate|]. cbn [RefEngine.deref] in H.
  destruct (mem eqb r (c_nodes c)); [discriminate|].
  destruct (lookup r (c_cache c)) as [w|] eqn:El; [inversion H; subst; exact El|].
  destruct (run (deref n) (nodes r) (push r c) s) as [[[[w|e|x] c1] s1]|]; inversion H; subst.
  apply lookup_cons_same.
Qed.

Lemma deref_again : forall n r c s v, lookup r (c_cache c) = Some v -> ~ In r (c_nodes c) ->
  deref (S n) r c s = Some (OOk v, c, s).
Proof.
  intros n r c s v H Hn. cbn [RefEngine.deref]. apply mem_not in Hn. rewrite Hn, H. reflexivity.
Qed.

End Proofs.

(** Properties C37, C38, C59, C60: evaluation of references.
    In all of them [R] is the type of reference objects compared by identity, [nodes] gives the
    [evaluate] method of each, [St] is the rest of the world (object, mode, input). *)
From Verif Require Import Base RefEngine RefSpec RefProofs RefStatic.
From Coq Require Import ZArith List Bool Lia.
Import ListNotations.

Definition identity {R} (eqb : R -> R -> bool) : Prop := forall a b, eqb a b = true <-> a = b.

(** C37.  Whatever the graph, cyclic or not, evaluation ends. *)
Theorem C37_terminates : forall R V St (eqb : R -> R -> bool) (nodes : R -> prog R V St) U,
  identity eqb -> finite_graph nodes U ->
  forall r s, In r U -> forall n, (length U < n)%nat ->
  exists o c' s', deref eqb nodes n r new_ctx s = Some (o, c', s')
    /\ (forall m x, deref eqb nodes m r new_ctx s = Some x -> x = (o, c', s')).
Proof.
  intros R V St eqb nodes U Hq HU r s Hr n Hn.
  pose proof (deref_total eqb Hq nodes U HU n r new_ctx s Hr (NoDup_nil _) (incl_nil_l _)) as T.
  cbn [new_ctx c_nodes length] in T. specialize (T ltac:(lia)). fold (@new_ctx R V) in T.
  destruct (deref eqb nodes n r new_ctx s) as [[[o c] s1]|] eqn:E; [|congruence].
  exists o, c, s1. split; [reflexivity|]. intros m x Hm.
  pose proof (deref_more eqb Hq nodes n (Nat.max n m) ltac:(lia) _ _ _ _ E) as E1.
  pose proof (deref_more eqb Hq nodes m (Nat.max n m) ltac:(lia) _ _ _ _ Hm) as E2. congruence.
Qed.
Print Assumptions C37_terminates.

(** It also ends when references have been evaluated before, with any context no reference of which
    is under evaluation. *)
Theorem C37_terminates_later : forall R V St (eqb : R -> R -> bool) (nodes : R -> prog R V St) U,
  identity eqb -> finite_graph nodes U ->
  forall r c s, In r U -> c_nodes c = [] -> forall n, (length U < n)%nat -> deref eqb nodes n r c s <> None.
Proof.
  intros R V St eqb nodes U Hq HU r c s Hr Hc n Hn. apply (deref_total eqb Hq nodes U HU n r c s Hr).
  - rewrite Hc. constructor.
  - rewrite Hc. apply incl_nil_l.
  - rewrite Hc. cbn. lia.
Qed.
Print Assumptions C37_terminates_later.

(** The cyclic error is raised exactly when the result of a reference under evaluation is needed. *)
Theorem C37_cyclic_exactly : forall R V St (eqb : R -> R -> bool) (nodes : R -> prog R V St),
  identity eqb ->
  forall n r c s o c' s', c_nodes c = [] -> deref eqb nodes n r c s = Some (o, c', s') ->
  ((exists r', o = OCyclic r') <-> loops eqb nodes r (c_cache c) s).
Proof. intros R V St eqb nodes Hq. exact (deref_cyclic_iff eqb Hq nodes). Qed.
Print Assumptions C37_cyclic_exactly.

(** Otherwise the result is that of plain memoised evaluation, and conversely. *)
Theorem C37_agrees_with_plain_evaluation : forall R V St (eqb : R -> R -> bool) (nodes : R -> prog R V St),
  identity eqb ->
  forall n r c s o c' s', deref eqb nodes n r c s = Some (o, c', s') ->
  match o with
  | OOk v => eval eqb nodes r (c_cache c) s (Ok v) (c_cache c') s'
  | ORaise e => eval eqb nodes r (c_cache c) s (Err e) (c_cache c') s'
  | OCyclic r' => exists l m1 s1, needs eqb nodes l r (c_cache c) s r' m1 s1
                                  /\ (In r' (c_nodes c) \/ In r' l)
  end.
Proof. intros R V St eqb nodes Hq. exact (deref_sound eqb Hq nodes). Qed.
Print Assumptions C37_agrees_with_plain_evaluation.

Theorem C37_plain_evaluation_is_computed : forall R V St (eqb : R -> R -> bool) (nodes : R -> prog R V St),
  identity eqb ->
  forall U n r c s x m' s', finite_graph nodes U -> In r U -> (length U < n)%nat -> c_nodes c = [] ->
  eval eqb nodes r (c_cache c) s x m' s' -> ~ loops eqb nodes r (c_cache c) s ->
  exists c', deref eqb nodes n r c s = Some (match x with Ok v => OOk v | Err e => ORaise e end, c', s')
    /\ c_cache c' = m' /\ c_nodes c' = [].
Proof. intros R V St eqb nodes Hq. exact (deref_complete eqb Hq nodes). Qed.
Print Assumptions C37_plain_evaluation_is_computed.

(** No cyclic error without a cycle in the graph. *)
Theorem C37_acyclic : forall R V St (eqb : R -> R -> bool) (nodes : R -> prog R V St) (rank : R -> nat),
  identity eqb -> (forall r r', mentions (nodes r) r' -> (rank r' < rank r)%nat) ->
  forall n r c s o c' s', c_nodes c = [] -> deref eqb nodes n r c s = Some (o, c', s') ->
  forall r', o <> OCyclic r'.
Proof.
  intros R V St eqb nodes rank Hq Hk n r c s o c' s' Hc H r' Ho.
  apply (acyclic_no_loop eqb Hq nodes rank Hk r (c_cache c) s).
  apply (proj1 (deref_cyclic_iff eqb Hq nodes _ _ _ _ _ _ _ Hc H)). exists r'. exact Ho.
Qed.
Print Assumptions C37_acyclic.

(** C38.  However the evaluations of one pack or unpack end, each reference was evaluated at most
    once, the known results are those of these evaluations, and no reference is under evaluation. *)
Theorem C38_at_most_once : forall R V St (eqb : R -> R -> bool) (nodes : R -> prog R V St),
  identity eqb ->
  forall n l s o c s', deref_all eqb nodes n l new_ctx s = Some (o, c, s') ->
  NoDup (starts (c_log c))
  /\ (forall r v, lookup eqb r (c_cache c) = Some v <-> In (EDone r v) (c_log c))
  /\ c_nodes c = [] /\ c_stack c = [].
Proof.
  intros R V St eqb nodes Hq n l s o c s' H.
  destruct (deref_all_once eqb Hq nodes n l new_ctx s o c s' H (logged_new eqb) eq_refl) as (A & B & C & D & _).
  split; [exact A|]. split; [exact B|]. split; [exact C|exact D].
Qed.
Print Assumptions C38_at_most_once.

(** Every later use sees the same value and evaluates nothing. *)
Theorem C38_same_value : forall R V St (eqb : R -> R -> bool) (nodes : R -> prog R V St),
  identity eqb ->
  forall n r c s v c1 s1, deref eqb nodes n r c s = Some (OOk v, c1, s1) ->
  forall m l s2 o c2 s3, c_nodes c = [] -> deref_all eqb nodes m l c1 s2 = Some (o, c2, s3) ->
  forall k s4, deref eqb nodes (S k) r c2 s4 = Some (OOk v, c2, s4).
Proof.
  intros R V St eqb nodes Hq n r c s v c1 s1 H m l s2 o c2 s3 Hc H2 k s4.
  pose proof (deref_value_cached eqb Hq nodes _ _ _ _ _ _ _ H) as Hv.
  destruct (deref_kept eqb Hq nodes _ _ _ _ _ _ _ H) as (K & _). rewrite Hc in K. clear H Hc.
  assert (G : lookup eqb r (c_cache c2) = Some v /\ c_nodes c2 = []).
  { revert c1 s2 Hv K H2. induction l as [|x l IH]; intros c1 s2 Hv K H2; cbn [deref_all] in H2.
    - inversion H2; subst. split; assumption.
    - destruct (deref eqb nodes m x c1 s2) as [[[o1 c3] s5]|] eqn:E; [|discriminate].
      destruct (deref_kept eqb Hq nodes _ _ _ _ _ _ _ E) as (K1 & _ & K3 & _).
      destruct o1; [apply (IH c3 s5); [apply K3, Hv|congruence|exact H2]| |];
        inversion H2; subst; (split; [apply K3, Hv|congruence]). }
  destruct G as (G1 & G2). apply (deref_again eqb Hq nodes k r c2 s4 v G1). rewrite G2. intros [].
Qed.
Print Assumptions C38_same_value.

(** The references under evaluation are restored by every evaluation, at any depth. *)
Theorem C38_restored : forall R V St (eqb : R -> R -> bool) (nodes : R -> prog R V St),
  identity eqb ->
  forall n r c s o c' s', deref eqb nodes n r c s = Some (o, c', s') ->
  c_nodes c' = c_nodes c /\ c_stack c' = c_stack c /\ extends eqb (c_cache c) (c_cache c').
Proof.
  intros R V St eqb nodes Hq n r c s o c' s' H.
  destruct (deref_kept eqb Hq nodes _ _ _ _ _ _ _ H) as (A & B & C & _). split; [exact A|]. split; assumption.
Qed.
Print Assumptions C38_restored.

(** C59.  The call stack attached to a failure is the chain of references that led to it: it starts
    at a reference that was asked for, every reference on it asked for the next one, and the last
    one raised the error itself or asked for a reference of the chain. *)
Theorem C59_reported_call_stack : forall R V St (eqb : R -> R -> bool) (nodes : R -> prog R V St),
  identity eqb ->
  forall n l s0 o c' s', deref_all eqb nodes n l new_ctx s0 = Some (Some o, c', s') ->
  exists root m s path bad m1 s1, In root l /\ needs eqb nodes path root m s bad m1 s1
    /\ lookup eqb bad m1 = None /\ c_exc c' = Some (rev (path ++ [bad]))
    /\ culprit eqb nodes bad m1 s1 o (rev path).
Proof. intros R V St eqb nodes Hq. exact (deref_all_traced eqb Hq nodes). Qed.
Print Assumptions C59_reported_call_stack.

(** C60.  The static test answers yes exactly for the references that can be evaluated without the
    context; such a reference has this one value in every pack and unpack, at every moment. *)
Theorem C60_static_test : forall R V St (eqb : R -> R -> bool) (nodes : R -> prog R V St),
  identity eqb ->
  forall U n s r, finite_graph nodes U -> In r U -> (length U < n)%nat ->
  exists x, is_static eqb nodes n s r = Some x /\ (x = Ok true <-> exists v, static nodes r v).
Proof. intros R V St eqb nodes Hq. exact (is_static_spec eqb Hq nodes). Qed.
Print Assumptions C60_static_test.

Theorem C60_static_value : forall R V St (eqb : R -> R -> bool) (nodes : R -> prog R V St),
  identity eqb ->
  forall f l s0 o0 c s1 n r v, static nodes r v ->
  deref_all eqb nodes f l new_ctx s0 = Some (o0, c, s1) ->
  forall s o c' s', deref eqb nodes n r c s = Some (o, c', s') -> o = OOk v /\ s' = s.
Proof. intros R V St eqb nodes Hq. exact (static_value eqb Hq nodes). Qed.
Print Assumptions C60_static_value.

(** ** Cases.  References: 0 = 3, 1 = 0 + 0, 2 = 1 + attribute of the object (and counts its
    evaluations in the object), 3 = 4, 4 = 3 unless the object is positive, 5 raises. *)
Definition ex_nodes (r : nat) : prog nat Z Z :=
  match r with
  | 0 => PRet 3%Z
  | 1 => PRef 0 (fun a => PRef 0 (fun b => PRet (a + b)%Z))
  | 2 => PRef 1 (fun a => PCtx (fun s => (Ok s, s + 1)%Z) (fun b => PRet (a + b)%Z))
  | 3 => PRef 4 PRet
  | 4 => PCtx (fun s => (Ok s, s)) (fun v => if (0 <? v)%Z then PRet v else PRef 3 PRet)
  | _ => PRef 2 (fun v => PRaise ValueError)
  end%nat.

Example ex_finite : finite_graph ex_nodes [0; 1; 2; 3; 4; 5]%nat.
Proof.
  intros r Hr. repeat destruct Hr as [<-|Hr]; [..|destruct Hr]; cbn [ex_nodes];
    repeat first [apply in_ret | apply in_raise | apply in_ref; [cbn; tauto|intros ?] | apply in_ctx; intros ?
                 | match goal with |- refs_in _ (if ?b then _ else _) => destruct b end].
Qed.

Example C37_nonvacuous :
  (exists c, deref Nat.eqb ex_nodes 7 2%nat new_ctx 10%Z = Some (OOk 16%Z, c, 11%Z))
  /\ (exists c, deref Nat.eqb ex_nodes 7 3%nat new_ctx 0%Z = Some (OCyclic 3%nat, c, 0%Z))
  /\ (exists c, deref Nat.eqb ex_nodes 7 3%nat new_ctx 5%Z = Some (OOk 5%Z, c, 5%Z))
  /\ loops Nat.eqb ex_nodes 3%nat [] 0%Z.
Proof.
  split; [eexists; vm_compute; reflexivity|]. split; [eexists; vm_compute; reflexivity|].
  split; [eexists; vm_compute; reflexivity|].
  exists [3; 4]%nat, 3%nat, [], 0%Z. split; [|left; reflexivity].
  eapply needs_step; [reflexivity|constructor|]. eapply needs_step; [reflexivity| |constructor].
  eapply asks_ctx; [reflexivity|]. constructor.
Qed.

Example C38_nonvacuous : exists c,
  deref_all Nat.eqb ex_nodes 7 [1; 2; 2; 5; 1]%nat new_ctx 10%Z = Some (Some (ORaise ValueError), c, 11%Z)
  /\ starts (c_log c) = [5; 2; 0; 1]%nat /\ c_exc c = Some [5%nat].
Proof. eexists. split; [vm_compute; reflexivity|]. split; vm_compute; reflexivity. Qed.

Example C60_nonvacuous :
  static ex_nodes 1%nat 6%Z /\ is_static Nat.eqb ex_nodes 7 0%Z 1%nat = Some (Ok true)
  /\ is_static Nat.eqb ex_nodes 7 0%Z 2%nat = Some (Ok false).
Proof.
  split; [|split; vm_compute; reflexivity]. exists 3%nat. constructor. cbn [ex_nodes].
  eapply (pure_ref ex_nodes _ _ 3%Z 1 6%Z 1); [repeat constructor|].
  eapply (pure_ref ex_nodes _ _ 3%Z 1 6%Z 0); [repeat constructor|]. constructor.
Qed.

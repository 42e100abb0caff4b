(** Vocabulary for properties of reference evaluation: plain memoised evaluation without any cycle
    detection, and what it means that an evaluation needs a reference. *)
From Verif Require Import Base RefEngine.
From Coq Require Import ZArith List Bool.
Import ListNotations.

Section Spec.
Context {R V St : Type}.
Variable eqb : R -> R -> bool.
Variable nodes : R -> prog R V St.

(** ** Plain evaluation: results of references are remembered, nothing else happens.
    [eval r m s x m' s']: evaluating [r] with memory [m] in state [s] ends with [x], leaving memory
    [m'] and state [s'].  There is no derivation for an evaluation that never ends. *)
Inductive eval : R -> list (R * V) -> St -> res V -> list (R * V) -> St -> Prop :=
| eval_known : forall r m s v, lookup eqb r m = Some v -> eval r m s (Ok v) m s
| eval_new : forall r m s v m' s', lookup eqb r m = None ->
    exec (nodes r) m s (Ok v) m' s' -> eval r m s (Ok v) ((r, v) :: m') s'
| eval_raise : forall r m s e m' s', lookup eqb r m = None ->
    exec (nodes r) m s (Err e) m' s' -> eval r m s (Err e) m' s'
with exec : prog R V St -> list (R * V) -> St -> res V -> list (R * V) -> St -> Prop :=
| exec_ret : forall v m s, exec (PRet v) m s (Ok v) m s
| exec_throw : forall e m s, exec (PRaise e) m s (Err e) m s
| exec_ref : forall r k m s v m1 s1 x m' s', eval r m s (Ok v) m1 s1 -> exec (k v) m1 s1 x m' s' ->
    exec (PRef r k) m s x m' s'
| exec_ref_raise : forall r k m s e m1 s1, eval r m s (Err e) m1 s1 -> exec (PRef r k) m s (Err e) m1 s1
| exec_ctx : forall f k m s v s1 x m' s', f s = (Ok v, s1) -> exec (k v) m s1 x m' s' ->
    exec (PCtx f k) m s x m' s'
| exec_ctx_raise : forall f k m s e s1, f s = (Err e, s1) -> exec (PCtx f k) m s (Err e) m s1.

(** [asks p m s r m' s']: running [p] from memory [m] and state [s] gets to the point where it
    evaluates [r], with memory [m'] and state [s']. *)
Inductive asks : prog R V St -> list (R * V) -> St -> R -> list (R * V) -> St -> Prop :=
| asks_here : forall r k m s, asks (PRef r k) m s r m s
| asks_after : forall r k m s v m1 s1 r' m' s', eval r m s (Ok v) m1 s1 ->
    asks (k v) m1 s1 r' m' s' -> asks (PRef r k) m s r' m' s'
| asks_ctx : forall f k m s v s1 r' m' s', f s = (Ok v, s1) ->
    asks (k v) m s1 r' m' s' -> asks (PCtx f k) m s r' m' s'.

(** [needs l r m s r' m' s']: evaluating [r] leads to the evaluation of [r'], through the
    references [l] (outermost first, [r] included, [r'] not), none of them known at the time. *)
Inductive needs : list R -> R -> list (R * V) -> St -> R -> list (R * V) -> St -> Prop :=
| needs_self : forall r m s, needs [] r m s r m s
| needs_step : forall r m s r1 m1 s1 l r' m' s', lookup eqb r m = None ->
    asks (nodes r) m s r1 m1 s1 -> needs l r1 m1 s1 r' m' s' -> needs (r :: l) r m s r' m' s'.

(** The evaluation of [r] needs the result of a reference it is in the middle of evaluating. *)
Definition loops (r : R) (m : list (R * V)) (s : St) : Prop :=
  exists l r' m' s', needs l r m s r' m' s' /\ In r' l.

(** ** Finite reference graphs *)
Inductive refs_in (U : list R) : prog R V St -> Prop :=
| in_ret : forall v, refs_in U (PRet v)
| in_raise : forall e, refs_in U (PRaise e)
| in_ref : forall r k, In r U -> (forall v, refs_in U (k v)) -> refs_in U (PRef r k)
| in_ctx : forall f k, (forall v, refs_in U (k v)) -> refs_in U (PCtx f k).

(** All references that evaluation can ever get to from [U] are in [U]. *)
Definition finite_graph (U : list R) : Prop := forall r, In r U -> refs_in U (nodes r).

(** Running [p] may evaluate [r] (for some values of what it evaluates first). *)
Inductive mentions : prog R V St -> R -> Prop :=
| m_ref : forall r k, mentions (PRef r k) r
| m_ref_k : forall r k v r', mentions (k v) r' -> mentions (PRef r k) r'
| m_ctx : forall f k v r', mentions (k v) r' -> mentions (PCtx f k) r'.

(** ** Errors: [throws p m s e]: running [p] raises [e] itself, not through a reference. *)
Inductive throws : prog R V St -> list (R * V) -> St -> exn -> Prop :=
| th_raise : forall e m s, throws (PRaise e) m s e
| th_ctx : forall f k m s e s1, f s = (Err e, s1) -> throws (PCtx f k) m s e
| th_after : forall r k m s v m1 s1 e, eval r m s (Ok v) m1 s1 -> throws (k v) m1 s1 e ->
    throws (PRef r k) m s e
| th_after_ctx : forall f k m s v s1 e, f s = (Ok v, s1) -> throws (k v) m s1 e ->
    throws (PCtx f k) m s e.

(** What makes the evaluation of [bad] fail with [o], while [under] are under evaluation. *)
Definition culprit (bad : R) (m : list (R * V)) (s : St) (o : outcome R V) (under : list R) : Prop :=
  match o with
  | OOk _ => False
  | ORaise e => throws (nodes bad) m s e
  | OCyclic r' => In r' (bad :: under) /\ exists m' s', asks (nodes bad) m s r' m' s'
  end.

(** ** Static references: a value obtained without reading anything from the context, by [n]
    evaluations, repetitions counted. *)
Inductive pure : R -> V -> nat -> Prop :=
| pure_intro : forall r v n, pure_prog (nodes r) v n -> pure r v (S n)
with pure_prog : prog R V St -> V -> nat -> Prop :=
| pure_ret : forall v, pure_prog (PRet v) v 0
| pure_ref : forall r k v n w n', pure r v n -> pure_prog (k v) w n' -> pure_prog (PRef r k) w (n + n').

(** [r] has the value [v] whatever the context is. *)
Definition static (r : R) (v : V) : Prop := exists n, pure r v n.

(** ** Events *)
Definition starts (l : list (event R V)) : list R :=
  flat_map (fun e => match e with EStart r => [r] | _ => [] end) l.
Definition finishes (l : list (event R V)) : list R :=
  flat_map (fun e => match e with EDone r _ => [r] | _ => [] end) l.

(** The first occurrence of each reference is what a lookup finds; [extends m m']: nothing known is
    forgotten or changed. *)
Definition extends (m m' : list (R * V)) : Prop :=
  forall r v, lookup eqb r m = Some v -> lookup eqb r m' = Some v.

End Spec.

(** Contexts behave like values of their own: lemmas for C83. *)
From Verif Require Import Base Marshal Contexts ContextsSpec.
From Coq Require Import ZArith List Bool String Lia.
Import ListNotations.
Open Scope list_scope.

(** ** The same with dicts as lists of entries *)
(** Contents of the dicts and of the contexts, numbered as they were made. *)
Record lstate : Type := mkL { l_dicts : list dict; l_ctxs : list (bool * dict) }.
Definition l_initial : lstate := mkL [] [(false, [])].

Definition l_dict (s : lstate) (d : dict) : answer * lstate := (ANewDict, mkL (l_dicts s ++ [d]) (l_ctxs s)).
Definition l_ctx (s : lstate) (w : bool) (d : dict) : answer * lstate := (ANewCtx, mkL (l_dicts s) (l_ctxs s ++ [(w, d)])).
Definition l_change (s : lstate) (c : nat) (f : dict -> res dict) : answer * lstate :=
  match nth_error (l_ctxs s) c with
  | None => (AErr NotModelled, s)
  | Some (false, _) => (AErr AttributeError, s)
  | Some (true, d) =>
      match f d with
      | Ok d' => (ANone, mkL (l_dicts s) (replace (l_ctxs s) c (true, d')))
      | Err e => (AErr e, s)
      end
  end.
Definition l_arg (s : lstate) (i : option nat) (default : dict) : res dict :=
  match i with
  | None => Ok default
  | Some i => match nth_error (l_dicts s) i with Some d => Ok d | None => Err NotModelled end
  end.

Definition lstep (o : cop) (s : lstate) : answer * lstate :=
  match o with
  | NewDict d => l_dict s (dict_update [] d)
  | DictSet i k v =>
      match nth_error (l_dicts s) i with
      | Some d => (ANone, mkL (replace (l_dicts s) i (set_attr d k v)) (l_ctxs s))
      | None => (AErr NotModelled, s)
      end
  | DictGet i k default =>
      match nth_error (l_dicts s) i with
      | Some d => (AValue (get_default d k default), s)
      | None => (AErr NotModelled, s)
      end
  | NewRO i => match l_arg s i [] with Ok d => l_ctx s false d | Err e => (AErr e, s) end
  | NewW i => match l_arg s i [] with Ok d => l_ctx s true d | Err e => (AErr e, s) end
  | CtxGet c k default =>
      match nth_error (l_ctxs s) c with
      | Some (_, d) => (AValue (get_default d k default), s)
      | None => (AErr NotModelled, s)
      end
  | GetDict c =>
      match nth_error (l_ctxs s) c with
      | Some (_, d) => l_dict s d
      | None => (AErr NotModelled, s)
      end
  | WritableCopy c i =>
      match nth_error (l_ctxs s) c, l_arg s i [] with
      | Some (_, d), Ok e => l_ctx s true (dict_update d e)
      | None, _ => (AErr NotModelled, s)
      | _, Err e => (AErr e, s)
      end
  | Put c k v => l_change s c (fun d => Ok (set_attr d k v))
  | Update c i =>
      match nth_error (l_dicts s) i with
      | Some e => l_change s c (fun d => Ok (dict_update d e))
      | None => (AErr NotModelled, s)
      end
  | Remove c k => l_change s c (fun d => dict_del d k)
  | Updated i obj c =>
      match nth_error (l_ctxs s) c, l_arg s i [("struct"%string, obj)] with
      | Some (_, d), Ok e => l_ctx s true (dict_update e d)
      | None, _ => (AErr NotModelled, s)
      | _, Err e => (AErr e, s)
      end
  end.
Fixpoint lrun (ops : list cop) (s : lstate) : list answer * lstate :=
  match ops with
  | [] => ([], s)
  | o :: r => let (a, s1) := lstep o s in let (l, s2) := lrun r s1 in (a :: l, s2)
  end.


Definition owned (s : cstate) : list nat := dicts s ++ map c_d (filter writable (ctxs s)).
Definition same_ctx (h : heap) (x : cobj) (y : bool * dict) : Prop :=
  writable x = fst y /\ at_ h (c_d x) = snd y /\ (writable x = false -> c_d x = O).
Record rel (s : cstate) (v : lstate) : Prop := mkRel {
  rel_zero : at_ (heap_of s) O = [] /\ (0 < List.length (heap_of s))%nat;
  rel_dicts : Forall2 (fun l d => at_ (heap_of s) l = d) (dicts s) (l_dicts v);
  rel_ctxs : Forall2 (same_ctx (heap_of s)) (ctxs s) (l_ctxs v);
  rel_nodup : NoDup (owned s);
  rel_bound : Forall (fun l => (0 < l < List.length (heap_of s))%nat) (owned s) }.

Lemma put_at_length h : forall l d, List.length (put_at h l d) = List.length h.
Proof. induction h as [|x r IH]; intros [|l] d; cbn; auto. Qed.
Lemma at_put_same h : forall l d, (l < List.length h)%nat -> at_ (put_at h l d) l = d.
Proof. unfold at_. induction h as [|x r IH]; intros [|l] d H; cbn in *; try lia; auto. apply IH. lia. Qed.
Lemma at_put_other h : forall l l' d, l <> l' -> at_ (put_at h l d) l' = at_ h l'.
Proof. unfold at_. induction h as [|x r IH]; intros [|l] [|l'] d H; cbn in *; try lia; auto. Qed.
Lemma at_alloc_old h d l : (l < List.length h)%nat -> at_ (h ++ [d]) l = at_ h l.
Proof. intros H. unfold at_. now rewrite app_nth1. Qed.
Lemma at_alloc_new h d : at_ (h ++ [d]) (List.length h) = d.
Proof. unfold at_. rewrite app_nth2, Nat.sub_diag; auto. Qed.

Lemma Forall2_nth {A B} (P : A -> B -> Prop) l m : Forall2 P l m -> forall i,
  match nth_error l i, nth_error m i with
  | Some x, Some y => P x y
  | None, None => True
  | _, _ => False
  end.
Proof. induction 1; intros [|i]; cbn; auto. apply IHForall2. Qed.
Lemma Forall2_change {A B} (P Q : A -> B -> Prop) l m : (forall x y, In x l -> P x y -> Q x y) -> Forall2 P l m -> Forall2 Q l m.
Proof. intros H F. induction F; constructor; auto. - apply H; [now left|assumption]. - apply IHF. intros. apply H; [now right|assumption]. Qed.
Lemma Forall2_replace {A B} (P Q : A -> B -> Prop) : forall l m i x y, Forall2 P l m -> nth_error l i = Some x ->
  (forall j x' y', nth_error l j = Some x' -> j <> i -> P x' y' -> Q x' y') -> Q x y -> Forall2 Q l (replace m i y).
Proof.
  induction l as [|a l IH]; intros m i x y F N H X; [destruct i; discriminate|].
  inversion F as [|? b ? m' Fa Fl]; subst. destruct i as [|i]; cbn [replace].
  - injection N as ->. constructor; [exact X|]. clear IH F Fa.
    assert (G : forall j x' y', nth_error l j = Some x' -> P x' y' -> Q x' y') by (intros j x' y' J; apply (H (S j)); [exact J|discriminate]).
    clear - Fl G. induction Fl; constructor; [now apply (G O)|]. apply IHFl. intros j x' y' J. now apply (G (S j)).
  - constructor; [now apply (H O)|]. apply (IH m' i x y Fl N); [|exact X]. intros j x' y' J K. apply (H (S j)); [exact J|lia].
Qed.

Lemma owned_in_dict s l : In l (dicts s) -> In l (owned s).
Proof. intros. unfold owned. apply in_or_app. now left. Qed.
Lemma owned_in_ctx s x : In x (ctxs s) -> writable x = true -> In (c_d x) (owned s).
Proof. intros. unfold owned. apply in_or_app. right. apply in_map. now apply filter_In. Qed.
Lemma ctx_bound s v x : rel s v -> In x (ctxs s) -> (c_d x < List.length (heap_of s))%nat.
Proof.
  intros R I. destruct (writable x) eqn:W.
  - pose proof (rel_bound _ _ R) as B. rewrite Forall_forall in B. apply (B (c_d x)). now apply owned_in_ctx.
  - pose proof (rel_ctxs _ _ R) as C. destruct (In_nth_error _ _ I) as (i & N). pose proof (Forall2_nth _ _ _ C i) as G. rewrite N in G.
    destruct (nth_error (l_ctxs v) i) as [y|]; [|destruct G]. destruct G as (_ & _ & G). rewrite (G W). apply (rel_zero _ _ R).
Qed.

(** New dicts. *)
Lemma rel_new_dict s v d : rel s v -> fst (new_dict s d) = fst (l_dict v d) /\ rel (snd (new_dict s d)) (snd (l_dict v d)).
Proof.
  intros R. split; [reflexivity|]. unfold new_dict, alloc. cbn [snd l_dict].
  pose proof (rel_zero _ _ R) as [Z1 Z2]. pose proof (rel_bound _ _ R) as B. rewrite Forall_forall in B.
  constructor; cbn [heap_of dicts ctxs l_dicts l_ctxs].
  - rewrite at_alloc_old by assumption. split; [assumption|]. rewrite app_length. cbn. lia.
  - apply Forall2_app; [|constructor; [apply at_alloc_new|constructor]]. apply (Forall2_change (fun l d => at_ (heap_of s) l = d)); [|apply (rel_dicts _ _ R)].
    intros l e I E. rewrite at_alloc_old; [exact E|]. apply B. now apply owned_in_dict.
  - apply (Forall2_change (same_ctx (heap_of s))); [|apply (rel_ctxs _ _ R)]. intros x y I (A1 & A2 & A3). split; [exact A1|]. split; [|exact A3].
    rewrite at_alloc_old; [exact A2|]. eapply ctx_bound; eauto.
  - unfold owned. cbn [dicts ctxs]. rewrite <- app_assoc. cbn [app]. apply NoDup_Add with (a := List.length (heap_of s)) (l := owned s); [apply Add_app|].
    split; [apply (rel_nodup _ _ R)|]. intros I. apply B in I. lia.
  - unfold owned. cbn [dicts ctxs]. rewrite app_length. cbn [List.length].
    assert (G : Forall (fun l => (0 < l < List.length (heap_of s) + 1)%nat) (owned s)) by (apply Forall_forall; intros l I; apply B in I; lia).
    unfold owned in G. apply Forall_app in G as [G1 G2]. apply Forall_app. split; [|exact G2]. apply Forall_app. split; [exact G1|]. constructor; [lia|constructor].
Qed.
Lemma rel_new_ctx s v d : rel s v -> fst (new_ctx s true d) = fst (l_ctx v true d) /\ rel (snd (new_ctx s true d)) (snd (l_ctx v true d)).
Proof.
  intros R. split; [reflexivity|]. unfold new_ctx, alloc. cbn [snd l_ctx].
  pose proof (rel_zero _ _ R) as [Z1 Z2]. pose proof (rel_bound _ _ R) as B. rewrite Forall_forall in B.
  constructor; cbn [heap_of dicts ctxs l_dicts l_ctxs].
  - rewrite at_alloc_old by assumption. split; [assumption|]. rewrite app_length. cbn. lia.
  - apply (Forall2_change (fun l d => at_ (heap_of s) l = d)); [|apply (rel_dicts _ _ R)].
    intros l e I E. rewrite at_alloc_old; [exact E|]. apply B. now apply owned_in_dict.
  - apply Forall2_app; [|constructor; [|constructor]].
    + apply (Forall2_change (same_ctx (heap_of s))); [|apply (rel_ctxs _ _ R)]. intros x y I (A1 & A2 & A3). split; [exact A1|]. split; [|exact A3].
      rewrite at_alloc_old; [exact A2|]. eapply ctx_bound; eauto.
    + split; [reflexivity|]. split; [apply at_alloc_new|discriminate].
  - unfold owned. cbn [dicts ctxs]. rewrite filter_app, map_app. cbn [filter writable map c_d]. rewrite app_assoc.
    apply NoDup_Add with (a := List.length (heap_of s)) (l := owned s).
    + fold (owned s). rewrite <- (app_nil_r (owned s)) at 1. apply Add_app.
    + split; [apply (rel_nodup _ _ R)|]. intros I. apply B in I. lia.
  - unfold owned. cbn [dicts ctxs]. rewrite filter_app, map_app, app_length. cbn [filter writable map c_d List.length]. rewrite app_assoc.
    apply Forall_app. split; [|constructor; [lia|constructor]]. apply Forall_forall. intros l I. fold (owned s) in I. apply B in I. lia.
Qed.

(** Writing to a dict the program or a context owns. *)
Lemma NoDup_nth_inj {A} (l : list A) i j x : NoDup l -> nth_error l i = Some x -> nth_error l j = Some x -> i = j.
Proof.
  intros N I J. rewrite NoDup_nth_error in N. apply N; [apply nth_error_Some; congruence|congruence].
Qed.
Lemma owned_distinct s i l x : NoDup (owned s) -> nth_error (dicts s) i = Some l -> In x (ctxs s) -> writable x = true -> c_d x <> l.
Proof.
  intros N I X W E. unfold owned in N. apply nth_error_In in I. revert N. clear - I X W E. revert I.
  assert (Y : In l (map c_d (filter writable (ctxs s)))) by (rewrite <- E; apply in_map; now apply filter_In). revert Y. generalize (map c_d (filter writable (ctxs s))) (dicts s).
  intros m d Y. induction d as [|a d IH]; intros I N; [destruct I|]. cbn in N. inversion N as [|? ? H1 H2]; subst. destruct I as [->|I]; [|auto].
  apply H1. apply in_or_app. now right.
Qed.
Lemma ctx_distinct s i j x y : NoDup (owned s) -> nth_error (ctxs s) i = Some x -> nth_error (ctxs s) j = Some y -> writable x = true -> writable y = true -> i <> j -> c_d x <> c_d y.
Proof.
  intros N I J W1 W2 D E. unfold owned in N. assert (N' : NoDup (map c_d (filter writable (ctxs s)))).
  { revert N. generalize (map c_d (filter writable (ctxs s))). induction (dicts s) as [|a d IH]; cbn; intros m N; auto. inversion N; auto. }
  clear N. revert i j I J D N'. induction (ctxs s) as [|a l IH]; intros i j I J D N; [destruct i; discriminate|].
  destruct i as [|i], j as [|j]; cbn in I, J; [congruence| | |].
  - injection I as ->. cbn [filter] in N. rewrite W1 in N. cbn [map] in N. inversion N as [|? ? H _]; subst. apply H. rewrite E. apply in_map. apply filter_In. split; [eapply nth_error_In; eauto|exact W2].
  - injection J as ->. cbn [filter] in N. rewrite W2 in N. cbn [map] in N. inversion N as [|? ? H _]; subst. apply H. rewrite <- E. apply in_map. apply filter_In. split; [eapply nth_error_In; eauto|exact W1].
  - apply (IH i j I J); [congruence|]. cbn [filter] in N. destruct (writable a); [|exact N]. cbn [map] in N. now inversion N.
Qed.

Lemma rel_set_dict s v i l d : rel s v -> nth_error (dicts s) i = Some l ->
  rel (mkSt (put_at (heap_of s) l d) (dicts s) (ctxs s)) (mkL (replace (l_dicts v) i d) (l_ctxs v)).
Proof.
  intros R I. pose proof (rel_bound _ _ R) as B. rewrite Forall_forall in B. assert (Bl := B l (owned_in_dict s l (nth_error_In _ _ I))).
  constructor; cbn [heap_of dicts ctxs l_dicts l_ctxs].
  - rewrite at_put_other by lia. rewrite put_at_length. apply (rel_zero _ _ R).
  - apply (Forall2_replace (fun l d => at_ (heap_of s) l = d) _ _ _ i l d (rel_dicts _ _ R) I); [|apply at_put_same; lia].
    intros j l' e J D E. rewrite at_put_other; [exact E|]. intros ->. apply D. eapply (NoDup_nth_inj (owned s)); [apply (rel_nodup _ _ R)| |];
      unfold owned; rewrite nth_error_app1; eauto; apply nth_error_Some; congruence.
  - apply (Forall2_change (same_ctx (heap_of s))); [|apply (rel_ctxs _ _ R)]. intros x y X (A1 & A2 & A3). split; [exact A1|]. split; [|exact A3].
    rewrite at_put_other; [exact A2|]. intros E. destruct (writable x) eqn:W.
    + eapply owned_distinct; eauto. apply (rel_nodup _ _ R).
    + rewrite (A3 eq_refl) in E. lia.
  - apply (rel_nodup _ _ R).
  - rewrite put_at_length. apply (rel_bound _ _ R).
Qed.
Lemma rel_set_ctx s v i x d : rel s v -> nth_error (ctxs s) i = Some x -> writable x = true ->
  rel (mkSt (put_at (heap_of s) (c_d x) d) (dicts s) (ctxs s)) (mkL (l_dicts v) (replace (l_ctxs v) i (true, d))).
Proof.
  intros R I W. pose proof (rel_bound _ _ R) as B. rewrite Forall_forall in B. assert (Bl := B (c_d x) (owned_in_ctx s x (nth_error_In _ _ I) W)).
  constructor; cbn [heap_of dicts ctxs l_dicts l_ctxs].
  - rewrite at_put_other by lia. rewrite put_at_length. apply (rel_zero _ _ R).
  - apply (Forall2_change (fun l d => at_ (heap_of s) l = d)); [|apply (rel_dicts _ _ R)]. intros l e L E. rewrite at_put_other; [exact E|].
    destruct (In_nth_error _ _ L) as (j & J). eapply owned_distinct; eauto; [apply (rel_nodup _ _ R)|]. eapply nth_error_In; eauto.
  - apply (Forall2_replace (same_ctx (heap_of s)) _ _ _ i x (true, d) (rel_ctxs _ _ R) I).
    + intros j x' y' J D (A1 & A2 & A3). split; [exact A1|]. split; [|exact A3]. rewrite at_put_other; [exact A2|]. destruct (writable x') eqn:W'.
      * eapply (ctx_distinct s i j); eauto. apply (rel_nodup _ _ R).
      * rewrite (A3 eq_refl). lia.
    + split; [exact W|]. split; [apply at_put_same; lia|]. congruence.
  - apply (rel_nodup _ _ R).
  - rewrite put_at_length. apply (rel_bound _ _ R).
Qed.

Lemma rel_mutate s v c f : rel s v -> fst (mutate s c f) = fst (l_change v c f) /\ rel (snd (mutate s c f)) (snd (l_change v c f)).
Proof.
  intros R. unfold mutate, l_change. pose proof (Forall2_nth _ _ _ (rel_ctxs _ _ R) c) as G.
  destruct (nth_error (ctxs s) c) as [x|] eqn:E; destruct (nth_error (l_ctxs v) c) as [[w d]|]; try destruct G; cbn [fst snd] in *; auto.
  destruct H0 as (A2 & A3). cbn [fst snd] in *. subst w. rewrite A2. destruct (writable x) eqn:W.
  - destruct (f d) as [d'|e]; cbn [fst snd]; [|auto]. split; [reflexivity|]. now apply rel_set_ctx.
  - auto.
Qed.

Lemma rel_arg s v i e : rel s v ->
  match dict_arg s i, l_arg v i e with
  | Ok l, Ok d => match l with Some l => at_ (heap_of s) l | None => e end = d
  | Err x, Err y => x = y
  | _, _ => False
  end.
Proof.
  intros R. unfold dict_arg, l_arg. destruct i as [i|]; [|reflexivity]. pose proof (Forall2_nth _ _ _ (rel_dicts _ _ R) i) as G.
  destruct (nth_error (dicts s) i), (nth_error (l_dicts v) i); auto.
Qed.

Lemma rel_step o s v : separate o -> rel s v -> fst (cstep o s) = fst (lstep o v) /\ rel (snd (cstep o s)) (snd (lstep o v)).
Proof.
  intros S R. destruct o as [d|i k w|i k w|i|i|c k w|c|c i|c k w|c i|c k|i ob c]; cbn [cstep lstep].
  - now apply rel_new_dict.
  - pose proof (Forall2_nth _ _ _ (rel_dicts _ _ R) i) as G. destruct (nth_error (dicts s) i) as [l|] eqn:E, (nth_error (l_dicts v) i); try destruct G; auto.
    split; [reflexivity|]. cbn [snd]. now apply rel_set_dict.
  - pose proof (Forall2_nth _ _ _ (rel_dicts _ _ R) i) as G. destruct (nth_error (dicts s) i) as [l|] eqn:E, (nth_error (l_dicts v) i); try destruct G; auto.
  - destruct i; [destruct S|]. cbn [dict_arg l_arg l_ctx fst snd]. split; [reflexivity|]. constructor; cbn [heap_of dicts ctxs l_dicts l_ctxs].
    + apply (rel_zero _ _ R).
    + apply (rel_dicts _ _ R).
    + apply Forall2_app; [apply (rel_ctxs _ _ R)|]. constructor; [|constructor]. split; [reflexivity|]. split; [apply (rel_zero _ _ R)|reflexivity].
    + unfold owned. cbn [dicts ctxs]. rewrite filter_app. cbn [filter writable]. rewrite app_nil_r. apply (rel_nodup _ _ R).
    + unfold owned. cbn [dicts ctxs]. rewrite filter_app. cbn [filter writable]. rewrite app_nil_r. apply (rel_bound _ _ R).
  - destruct i; [destruct S|]. cbn [dict_arg l_arg]. now apply rel_new_ctx.
  - pose proof (Forall2_nth _ _ _ (rel_ctxs _ _ R) c) as G. destruct (nth_error (ctxs s) c) as [x|], (nth_error (l_ctxs v) c) as [[b d]|]; try destruct G; auto.
    destruct H0 as (A2 & _). cbn [fst snd] in *. now rewrite A2.
  - pose proof (Forall2_nth _ _ _ (rel_ctxs _ _ R) c) as G. destruct (nth_error (ctxs s) c) as [x|], (nth_error (l_ctxs v) c) as [[b d]|]; try destruct G; auto.
    destruct H0 as (A2 & _). cbn [fst snd] in *. rewrite A2. now apply rel_new_dict.
  - pose proof (Forall2_nth _ _ _ (rel_ctxs _ _ R) c) as G. destruct (nth_error (ctxs s) c) as [x|], (nth_error (l_ctxs v) c) as [[b d]|]; try destruct G; auto.
    destruct H0 as (A2 & _). cbn [fst snd] in *. rewrite A2. pose proof (rel_arg s v i [] R) as A. destruct (dict_arg s i) as [l|], (l_arg v i []) as [d'|]; try destruct A; auto.
    now apply rel_new_ctx.
  - now apply rel_mutate.
  - pose proof (Forall2_nth _ _ _ (rel_dicts _ _ R) i) as G. destruct (nth_error (dicts s) i) as [l|] eqn:E, (nth_error (l_dicts v) i); try destruct G; auto.
    now apply rel_mutate.
  - now apply rel_mutate.
  - pose proof (Forall2_nth _ _ _ (rel_ctxs _ _ R) c) as G. destruct (nth_error (ctxs s) c) as [x|], (nth_error (l_ctxs v) c) as [[b d]|]; try destruct G; auto.
    destruct H0 as (A2 & _). cbn [fst snd] in *. rewrite A2. pose proof (rel_arg s v i [("struct"%string, ob)] R) as A.
    destruct (dict_arg s i) as [l|], (l_arg v i _) as [d'|]; try destruct A; auto. now apply rel_new_ctx.
Qed.

Lemma rel_run ops : Forall separate ops -> forall s v, rel s v -> fst (crun ops s) = fst (lrun ops v) /\ rel (snd (crun ops s)) (snd (lrun ops v)).
Proof.
  induction 1 as [|o ops So _ IH]; intros s v R; [auto|]. cbn [crun lrun]. destruct (rel_step o s v So R) as [E R'].
  destruct (cstep o s) as [a s1], (lstep o v) as [a' v1]. cbn [fst snd] in *. subst a'. destruct (IH s1 v1 R') as [E2 R2].
  destruct (crun ops s1), (lrun ops v1). cbn [fst snd] in *. subst. auto.
Qed.
Lemma rel_initial : rel initial l_initial.
Proof.
  constructor; cbn; auto.
  - constructor; [|constructor]. split; [reflexivity|]. split; reflexivity.
  - constructor.
Qed.

(** Updating a dict. *)
Lemma lookup_set d k v k' : Marshal.lookup (set_attr d k v) k' = if String.eqb k k' then Some v else Marshal.lookup d k'.
Proof.
  induction d as [|[a w] r IH]; cbn [set_attr Marshal.lookup]; [reflexivity|].
  destruct (String.eqb_spec a k) as [->|N]; cbn [Marshal.lookup].
  - destruct (String.eqb_spec k k'); reflexivity.
  - rewrite IH. destruct (String.eqb_spec a k') as [->|]; [|reflexivity]. destruct (String.eqb_spec k k'); [congruence|reflexivity].
Qed.
(** Later entries of a dict win, but a dict has no two of the same key. *)
Lemma lookup_update e : NoDup (map fst e) -> forall d k, Marshal.lookup (dict_update d e) k = match Marshal.lookup e k with Some v => Some v | None => Marshal.lookup d k end.
Proof.
  unfold dict_update. induction e as [|[a w] e IH]; intros N d k; cbn [fold_left Marshal.lookup fst snd]; [reflexivity|].
  cbn [map fst] in N. inversion N as [|? ? H N']; subst. rewrite (IH N'), lookup_set. destruct (String.eqb_spec a k) as [->|]; [|reflexivity].
  destruct (Marshal.lookup e k) eqn:L; [|reflexivity]. exfalso. apply H. clear - L. induction e as [|[b x] e IH]; [discriminate|]. cbn in *.
  destruct (String.eqb_spec b k); [now left|right; auto].
Qed.

(** What a context answers changes only through itself. *)
Lemma replace_other {A} (l : list A) : forall i j x, i <> j -> nth_error (replace l i x) j = nth_error l j.
Proof. induction l as [|a l IH]; intros [|i] [|j] x H; cbn; auto; congruence. Qed.
Lemma nth_app_old {A} (l m : list A) i x : nth_error l i = Some x -> nth_error (l ++ m) i = Some x.
Proof. intros H. rewrite nth_error_app1; [exact H|]. apply nth_error_Some. congruence. Qed.
Lemma change_keeps v c f c' x : c' <> c -> nth_error (l_ctxs v) c = Some x -> nth_error (l_ctxs (snd (l_change v c' f))) c = Some x.
Proof.
  intros N H. unfold l_change. destruct (nth_error (l_ctxs v) c') as [[[] d]|]; cbn [snd]; auto. destruct (f d); cbn [snd l_ctxs]; auto.
  now rewrite replace_other.
Qed.
Lemma step_keeps o v c x : leaves c o -> nth_error (l_ctxs v) c = Some x -> nth_error (l_ctxs (snd (lstep o v))) c = Some x.
Proof.
  intros L H. destruct o as [d|i k w|i k w|i|i|c' k w|c'|c' i|c' k w|c' i|c' k|i ob c']; cbn [lstep leaves] in *; try now apply change_keeps.
  - exact H.
  - destruct (nth_error (l_dicts v) i); exact H.
  - destruct (nth_error (l_dicts v) i); exact H.
  - destruct (l_arg v i []); [|exact H]. cbn. now apply nth_app_old.
  - destruct (l_arg v i []); [|exact H]. cbn. now apply nth_app_old.
  - destruct (nth_error (l_ctxs v) c') as [[]|]; exact H.
  - destruct (nth_error (l_ctxs v) c') as [[]|]; exact H.
  - destruct (nth_error (l_ctxs v) c') as [[]|]; [|exact H]. destruct (l_arg v i []); [|exact H]. cbn. now apply nth_app_old.
  - destruct (nth_error (l_dicts v) i); [|exact H]. now apply change_keeps.
  - destruct (nth_error (l_ctxs v) c') as [[]|]; [|exact H]. destruct (l_arg v i _); [|exact H]. cbn. now apply nth_app_old.
Qed.
Lemma run_keeps ops : forall v c x, Forall (leaves c) ops -> nth_error (l_ctxs v) c = Some x -> nth_error (l_ctxs (snd (lrun ops v))) c = Some x.
Proof.
  induction ops as [|o ops IH]; intros v c x L H; [exact H|]. inversion L; subst. cbn [lrun]. pose proof (step_keeps o v c x ltac:(assumption) H) as H'.
  destruct (lstep o v) as [a v1]. cbn [snd] in H'. specialize (IH v1 c x ltac:(assumption) H'). destruct (lrun ops v1). exact IH.
Qed.
Lemma run_app ops : forall ops' v, lrun (ops ++ ops') v = (fst (lrun ops v) ++ fst (lrun ops' (snd (lrun ops v))), snd (lrun ops' (snd (lrun ops v)))).
Proof.
  induction ops as [|o ops IH]; intros ops' v; cbn [app lrun fst snd]; [now destruct (lrun ops' v)|].
  destruct (lstep o v) as [a v1]. rewrite IH. destruct (lrun ops v1). reflexivity.
Qed.
Lemma last_get ops c k d : Forall separate ops ->
  last_answer (ops ++ [CtxGet c k d])
  = match nth_error (l_ctxs (snd (lrun ops l_initial))) c with Some (_, x) => AValue (get_default x k d) | None => AErr NotModelled end.
Proof.
  intros S. unfold last_answer. rewrite (proj1 (rel_run (ops ++ [CtxGet c k d]) ltac:(apply Forall_app; split; [exact S|repeat constructor]) _ _ rel_initial)), run_app. cbn [fst lrun lstep].
  destruct (nth_error (l_ctxs (snd (lrun ops l_initial))) c) as [[b x]|]; cbn [fst]; apply last_last.
Qed.
Lemma Forall2_len {A B} (P : A -> B -> Prop) l m : Forall2 P l m -> List.length l = List.length m.
Proof. induction 1; cbn; auto. Qed.
Lemma ctx_count ops : Forall separate ops -> List.length (ctxs (snd (crun ops initial))) = List.length (l_ctxs (snd (lrun ops l_initial))).
Proof. intros S. exact (Forall2_len _ _ _ (rel_ctxs _ _ (proj2 (rel_run ops S _ _ rel_initial)))). Qed.
Lemma contexts_isolated pre ops c k d : Forall separate pre -> Forall separate ops -> Forall (leaves c) ops ->
  (c < List.length (ctxs (snd (crun pre initial))))%nat ->
  last_answer (pre ++ ops ++ [CtxGet c k d]) = last_answer (pre ++ [CtxGet c k d]).
Proof.
  intros S1 S2 L H. rewrite app_assoc, !last_get by (auto; apply Forall_app; auto). rewrite ctx_count in H by exact S1.
  destruct (nth_error (l_ctxs (snd (lrun pre l_initial))) c) as [x|] eqn:E; [|apply nth_error_None in E; lia].
  rewrite run_app. cbn [snd]. now rewrite (run_keeps ops _ c x L E).
Qed.
Lemma read_only_stays o v c x : nth_error (l_ctxs v) c = Some (false, x) -> nth_error (l_ctxs (snd (lstep o v))) c = Some (false, x).
Proof.
  intros H. assert (G : forall c' f, nth_error (l_ctxs (snd (l_change v c' f))) c = Some (false, x)).
  { intros c' f. destruct (Nat.eq_dec c' c) as [->|N]; [|now apply change_keeps]. unfold l_change. now rewrite H. }
  destruct o; try (apply step_keeps; [exact I|exact H]); cbn [lstep]; auto. destruct (nth_error (l_dicts v) i); auto.
Qed.
Lemma read_only_forever ops : forall v c x, nth_error (l_ctxs v) c = Some (false, x) -> nth_error (l_ctxs (snd (lrun ops v))) c = Some (false, x).
Proof.
  induction ops as [|o ops IH]; intros v c x H; [exact H|]. cbn [lrun]. pose proof (read_only_stays o v c x H) as H'.
  destruct (lstep o v) as [a v1]. cbn [snd] in H'. specialize (IH v1 c x H'). destruct (lrun ops v1). exact IH.
Qed.
Lemma empty_stays_empty ops k d : Forall separate ops -> last_answer (ops ++ [CtxGet 0 k d]) = AValue d.
Proof. intros S. rewrite last_get by exact S. now rewrite (read_only_forever ops l_initial O [] eq_refl). Qed.

(** ** Lists of entries against contents *)
Definition holds (d : dict) (m : contents) : Prop := NoDup (map fst d) /\ forall k, Marshal.lookup d k = m k.
Lemma set_keys d k v : forall x, In x (map fst (set_attr d k v)) -> x = k \/ In x (map fst d).
Proof. induction d as [|[a w] d IH]; cbn; [intuition|]. destruct (String.eqb a k); cbn; intros x; intuition. apply IH in H0. tauto. Qed.
Lemma holds_set d m k v : holds d m -> holds (set_attr d k v) (with_key m k v).
Proof.
  intros [N L]. split; [|intros k'; rewrite lookup_set; unfold with_key; now rewrite L].
  clear L m. induction d as [|[a w] d IH]; cbn [set_attr map fst]; [repeat constructor; easy|]. cbn [map fst] in N. inversion N as [|? ? N1 N2]; subst.
  destruct (String.eqb_spec a k) as [->|D]; cbn [map fst]; [now constructor|]. constructor; [|auto]. intros I. apply set_keys in I as [|]; [congruence|contradiction].
Qed.
Lemma holds_nothing : holds [] nothing.
Proof. split; [constructor|reflexivity]. Qed.
Lemma holds_update e : forall d m, holds d m -> holds (dict_update d e) (fold_left (fun m p => with_key m (fst p) (snd p)) e m).
Proof. induction e as [|[k v] e IH]; intros d m H; [exact H|]. cbn [dict_update fold_left fst snd]. apply IH. now apply holds_set. Qed.
Lemma holds_over d m e m' : holds d m -> holds e m' -> holds (dict_update d e) (overridden m m').
Proof.
  intros H [N L]. split; [exact (proj1 (holds_update e d m H))|]. intros k. rewrite lookup_update by exact N. unfold overridden. rewrite L. now rewrite (proj2 H k).
Qed.
Lemma lookup_keys (d : dict) k : Marshal.lookup d k = None <-> ~ In k (map fst d).
Proof.
  induction d as [|[a w] d IH]; cbn; [tauto|]. destruct (String.eqb_spec a k) as [->|D]; [split; [discriminate|tauto]|]. rewrite IH. intuition.
Qed.
Lemma del_spec d k : NoDup (map fst d) ->
  match dict_del d k with
  | Ok d' => Marshal.lookup d k <> None /\ NoDup (map fst d') /\ (forall x, In x (map fst d') -> In x (map fst d))
             /\ forall k', Marshal.lookup d' k' = if String.eqb k k' then None else Marshal.lookup d k'
  | Err e => e = KeyError /\ Marshal.lookup d k = None
  end.
Proof.
  induction d as [|[a w] d IH]; intros N; cbn [dict_del]; [auto|]. cbn [map fst] in N. inversion N as [|? ? N1 N2]; subst. specialize (IH N2). cbn [Marshal.lookup].
  destruct (String.eqb_spec a k) as [->|D].
  - split; [discriminate|]. split; [exact N2|]. split; [now right|]. intros k'. destruct (String.eqb_spec k k') as [<-|]; [now apply lookup_keys|reflexivity].
  - destruct (dict_del d k) as [d'|e]; cbn [rbind]; [|exact IH]. destruct IH as (A & B & C & E). split; [exact A|]. cbn [map fst]. split; [constructor; auto|].
    split; [intros x [<-|I]; [now left|right; auto]|]. intros k'. cbn [Marshal.lookup]. destruct (String.eqb_spec a k') as [<-|].
    + destruct (String.eqb_spec k a); [congruence|reflexivity].
    + apply E.
Qed.

Record agrees (l : lstate) (v : vstate) : Prop := mkAgree {
  ag_dicts : Forall2 holds (l_dicts l) (v_dicts v);
  ag_ctxs : Forall2 (fun x y => fst x = fst y /\ holds (snd x) (snd y)) (l_ctxs l) (v_ctxs v) }.
Lemma agrees_initial : agrees l_initial v_initial.
Proof. split; [constructor|]. repeat constructor. Qed.
Lemma Forall2_snoc {A B} (P : A -> B -> Prop) l m x y : Forall2 P l m -> P x y -> Forall2 P (l ++ [x]) (m ++ [y]).
Proof. intros H H'. apply Forall2_app; auto. Qed.
Lemma Forall2_rep {A B} (P : A -> B -> Prop) l m : Forall2 P l m -> forall i x y, P x y -> Forall2 P (replace l i x) (replace m i y).
Proof. induction 1; intros [|i] a b Hab; cbn; constructor; auto. Qed.
Lemma agrees_dict l v d m : agrees l v -> holds d m -> fst (l_dict l d) = fst (v_dict v m) /\ agrees (snd (l_dict l d)) (snd (v_dict v m)).
Proof. intros [A B] H. split; [reflexivity|]. split; cbn; [now apply Forall2_snoc|exact B]. Qed.
Lemma agrees_ctx l v w d m : agrees l v -> holds d m -> fst (l_ctx l w d) = fst (v_ctx v w m) /\ agrees (snd (l_ctx l w d)) (snd (v_ctx v w m)).
Proof. intros [A B] H. split; [reflexivity|]. split; cbn; [exact A|]. apply Forall2_snoc; [exact B|]. now split. Qed.
Lemma agrees_change l v c f g : agrees l v ->
  (forall d m, holds d m -> match f d, g m with Ok d', Ok m' => holds d' m' | Err e, Err e' => e = e' | _, _ => False end) ->
  fst (l_change l c f) = fst (v_change v c g) /\ agrees (snd (l_change l c f)) (snd (v_change v c g)).
Proof.
  intros AG H. pose proof AG as [A B]. unfold l_change, v_change. pose proof (Forall2_nth _ _ _ B c) as N.
  destruct (nth_error (l_ctxs l) c) as [[b d]|], (nth_error (v_ctxs v) c) as [[b' m]|]; try contradiction; [|now split].
  cbn in N. destruct N as [<- Hd]. destruct b; [|now split]. specialize (H d m Hd). destruct (f d), (g m); try contradiction; [|subst; now split].
  split; [reflexivity|]. split; cbn; [exact A|]. apply Forall2_rep; [exact B|]. now split.
Qed.
Lemma agrees_arg l v i d m : agrees l v -> holds d m ->
  match l_arg l i d, v_arg v i m with Ok d', Ok m' => holds d' m' | Err e, Err e' => e = e' | _, _ => False end.
Proof.
  intros [A B] H. destruct i as [i|]; cbn; [|exact H]. pose proof (Forall2_nth _ _ _ A i) as N.
  destruct (nth_error (l_dicts l) i), (nth_error (v_dicts v) i); try contradiction; auto.
Qed.
Lemma agrees_step o l v : agrees l v -> fst (lstep o l) = fst (vstep o v) /\ agrees (snd (lstep o l)) (snd (vstep o v)).
Proof.
  intros AG. pose proof AG as [A B]. destruct o as [d|i k w|i k w|i|i|c k w|c|c i|c k w|c i|c k|i obj c]; cbn [lstep vstep].
  - apply agrees_dict; [exact AG|]. apply holds_update, holds_nothing.
  - pose proof (Forall2_nth _ _ _ A i) as N. destruct (nth_error (l_dicts l) i), (nth_error (v_dicts v) i); try contradiction; [|now split].
    split; [reflexivity|]. split; cbn; [|exact B]. apply Forall2_rep; [exact A|]. now apply holds_set.
  - pose proof (Forall2_nth _ _ _ A i) as N. destruct (nth_error (l_dicts l) i) as [d|], (nth_error (v_dicts v) i) as [m|]; try contradiction; [|now split].
    split; [|exact AG]. cbn. unfold get_default, entry. now rewrite (proj2 N).
  - pose proof (agrees_arg l v i [] nothing AG holds_nothing) as N. destruct (l_arg l i []), (v_arg v i nothing); try contradiction; [now apply agrees_ctx|subst; now split].
  - pose proof (agrees_arg l v i [] nothing AG holds_nothing) as N. destruct (l_arg l i []), (v_arg v i nothing); try contradiction; [now apply agrees_ctx|subst; now split].
  - pose proof (Forall2_nth _ _ _ B c) as N. destruct (nth_error (l_ctxs l) c) as [[b d]|], (nth_error (v_ctxs v) c) as [[b' m]|]; try contradiction; [|now split].
    split; [|exact AG]. cbn in *. unfold get_default, entry. now rewrite (proj2 (proj2 N)).
  - pose proof (Forall2_nth _ _ _ B c) as N. destruct (nth_error (l_ctxs l) c) as [[b d]|], (nth_error (v_ctxs v) c) as [[b' m]|]; try contradiction; [|now split].
    apply agrees_dict; [exact AG|apply N].
  - pose proof (Forall2_nth _ _ _ B c) as N. destruct (nth_error (l_ctxs l) c) as [[b d]|], (nth_error (v_ctxs v) c) as [[b' m]|]; try contradiction; [|now split].
    pose proof (agrees_arg l v i [] nothing AG holds_nothing) as N2. destruct (l_arg l i []), (v_arg v i nothing); try contradiction; [|subst; now split].
    apply agrees_ctx; [exact AG|]. apply holds_over; [apply N|exact N2].
  - apply agrees_change; [exact AG|]. intros d m H. now apply holds_set.
  - pose proof (Forall2_nth _ _ _ A i) as N. destruct (nth_error (l_dicts l) i), (nth_error (v_dicts v) i); try contradiction; [|now split].
    apply agrees_change; [exact AG|]. intros x y H. now apply holds_over.
  - apply agrees_change; [exact AG|]. intros d m [H1 H2]. pose proof (del_spec d k H1) as D. destruct (dict_del d k) as [d'|e].
    + destruct D as (D1 & D2 & _ & D3). rewrite H2 in D1. destruct (m k); [|congruence]. split; [exact D2|]. intros k'. rewrite D3, H2. reflexivity.
    + destruct D as [-> D]. rewrite H2 in D. now rewrite D.
  - pose proof (Forall2_nth _ _ _ B c) as N. destruct (nth_error (l_ctxs l) c) as [[b d]|], (nth_error (v_ctxs v) c) as [[b' m]|]; try contradiction; [|now split].
    assert (HS : holds [("struct"%string, obj)] (with_key nothing "struct"%string obj)) by exact (holds_set [] nothing "struct"%string obj holds_nothing).
    pose proof (agrees_arg l v i _ _ AG HS) as N2. destruct (l_arg l i _), (v_arg v i _); try contradiction; [|subst; now split].
    apply agrees_ctx; [exact AG|]. apply holds_over; [exact N2|apply N].
Qed.
Lemma agrees_run ops : forall l v, agrees l v -> fst (lrun ops l) = fst (vrun ops v).
Proof.
  induction ops as [|o ops IH]; intros l v AG; [reflexivity|]. cbn [lrun vrun]. destruct (agrees_step o l v AG) as [E AG'].
  destruct (lstep o l) as [a l1], (vstep o v) as [a' v1]. cbn [fst snd] in *. subst. specialize (IH l1 v1 AG'). destruct (lrun ops l1), (vrun ops v1). cbn in *. congruence.
Qed.
Lemma contexts_are_values ops : Forall separate ops -> fst (crun ops initial) = fst (vrun ops v_initial).
Proof. intros S. rewrite (proj1 (rel_run ops S _ _ rel_initial)). apply agrees_run, agrees_initial. Qed.

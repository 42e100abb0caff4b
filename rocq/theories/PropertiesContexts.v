(** Property C83: contexts. *)
From Verif Require Import Base Marshal Contexts ContextsSpec ContextsFacts.
From Coq Require Import ZArith List Bool String Lia.
Import ListNotations.
Open Scope string_scope.
Open Scope list_scope.
Open Scope Z_scope.

(** C83.  As long as no dict is given to a constructor, every history of operations on contexts
    answers as if each context and each dict were a finite map of its own, as in ContextsSpec.v: nothing
    is shared. *)
Theorem C83_contexts_are_values : forall ops, Forall separate ops -> fst (crun ops initial) = fst (vrun ops v_initial).
Proof. exact contexts_are_values. Qed.
Print Assumptions C83_contexts_are_values.

(** In particular a context answers differently only after put, update or remove of its own: what is
    done to its copies, to the contexts of nested structs made from it and to dicts has no effect. *)
Theorem C83_changes_stay_inside : forall pre ops c k d, Forall separate pre -> Forall separate ops -> Forall (leaves c) ops ->
  (c < List.length (ctxs (snd (crun pre initial))))%nat ->
  last_answer (pre ++ ops ++ [CtxGet c k d]) = last_answer (pre ++ [CtxGet c k d]).
Proof. exact contexts_isolated. Qed.
Print Assumptions C83_changes_stay_inside.

(** EMPTY_CONTEXT, the default of every method, is empty forever. *)
Theorem C83_empty_context : forall ops k d, Forall separate ops -> last_answer (ops ++ [CtxGet 0 k d]) = AValue d.
Proof. exact empty_stays_empty. Qed.
Print Assumptions C83_empty_context.

(** The context that the fields of a struct see: the entries of the given context win over those of
    the class's [_context_], or over the entry "struct" if there is none.  (This is the function the
    model of structs uses.) *)
Theorem C83_struct_context : forall cctx obj (c : dict) k, NoDup (map fst c) ->
  Marshal.lookup (dict_update (match cctx with Some d => d | None => [("struct", obj)] end) c) k
  = Marshal.lookup (get_updated_context cctx obj c) k
  /\ Marshal.lookup (get_updated_context cctx obj c) k
     = match Marshal.lookup c k with
       | Some v => Some v
       | None => match cctx with Some d => Marshal.lookup d k | None => if String.eqb "struct" k then Some obj else None end
       end.
Proof.
  intros cctx obj c k N. assert (E : Marshal.lookup (get_updated_context cctx obj c) k = match Marshal.lookup c k with
       | Some v => Some v
       | None => match cctx with Some d => Marshal.lookup d k | None => if String.eqb "struct" k then Some obj else None end
       end).
  { unfold get_updated_context. clear N. induction c as [|[a w] c IH]; cbn [app Marshal.lookup]; [destruct cctx; reflexivity|]. destruct (String.eqb a k); auto. }
  split; [|exact E]. rewrite E, lookup_update by exact N. destruct (Marshal.lookup c k); [reflexivity|]. destruct cctx; reflexivity.
Qed.
Print Assumptions C83_struct_context.

(** A dict given to WritableContext(): a dict with entries is shared, so that changes of the context
    change the dict; an empty one is not. *)
Theorem C83_constructor_shares_refuted : forall s i l k v d, nth_error (dicts s) i = Some l -> (l < List.length (heap_of s))%nat ->
  let c := List.length (ctxs s) in
  (at_ (heap_of s) l <> [] -> last (fst (crun [NewW (Some i); Put c k v; DictGet i k d] s)) ANone = AValue v)
  /\ (at_ (heap_of s) l = [] -> last (fst (crun [NewW (Some i); Put c k v; DictGet i k d] s)) ANone = AValue d).
Proof.
  intros s i l k v d I B c. cbn [crun cstep dict_arg]. rewrite I. split; intros E.
  - destruct (at_ (heap_of s) l) as [|x r] eqn:A; [congruence|]. unfold mutate. cbn [ctxs heap_of dicts]. unfold c. rewrite nth_error_app2, Nat.sub_diag by lia.
    cbn [nth_error writable c_d]. cbn [heap_of dicts ctxs]. rewrite I. rewrite at_put_same by exact B. cbn [fst last]. unfold get_default. rewrite lookup_set, String.eqb_refl. reflexivity.
  - rewrite E. unfold Contexts.new_ctx, alloc. cbn [ctxs heap_of dicts]. unfold mutate. cbn [ctxs heap_of dicts]. unfold c. rewrite nth_error_app2, Nat.sub_diag by lia.
    cbn [nth_error writable c_d heap_of dicts ctxs]. rewrite I. rewrite at_put_other by lia. rewrite at_alloc_old by exact B. rewrite E. reflexivity.
Qed.
Print Assumptions C83_constructor_shares_refuted.

(** User code of a nested struct puts something into its context; the context of the outer struct,
    the caller's context and EMPTY_CONTEXT do not change; removing twice is a KeyError. *)
Definition ex_history : list cop :=
  [Updated None (VInt 1) 0; Put 1 "depth" (VInt 5); Updated None (VInt 2) 1; CtxGet 2 "depth" VNone; CtxGet 2 "struct" VNone;
   Put 2 "depth" (VInt 6); Remove 2 "struct"; Remove 2 "struct"; CtxGet 1 "depth" VNone; CtxGet 1 "struct" VNone; CtxGet 0 "depth" VNone; Put 0 "x" VNone].
Example C83_nonvacuous : Forall separate ex_history
  /\ fst (crun ex_history initial) = [ANewCtx; ANone; ANewCtx; AValue (VInt 5); AValue (VInt 1); ANone; ANone; AErr KeyError; AValue (VInt 5); AValue (VInt 1); AValue VNone; AErr AttributeError]
  /\ Forall (leaves 1) [Put 2 "depth" (VInt 6); Remove 2 "struct"]
  /\ fst (crun [NewDict [("a", VInt 1)]; NewRO (Some 0%nat); DictSet 0 "a" (VInt 2); CtxGet 1 "a" VNone] initial) = [ANewDict; ANewCtx; ANone; AValue (VInt 2)].
Proof. split; [repeat constructor|]. split; [reflexivity|]. split; [repeat constructor; discriminate|]. reflexivity. Qed.

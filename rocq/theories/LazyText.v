(** Texts of objects with lazy containers: constants, and fields that have no value yet. *)
From Verif Require Import Base IntCodec Stream StreamSpec MinMax Marshal MarshalInd FieldSpec Repr ReprFacts Lazy LazySpec LazyFacts LazyShow.
From Coq Require Import ZArith List Bool String Lia.
Import ListNotations.
Open Scope Z_scope.

Section Text.
Variables (pd pf : Z -> string) (pr : value -> res string).

Lemma waiting cls fs o : Forall (fun f => exists n, declares n f) fs -> pending 0 (lo_data o) <> None ->
  lazy_repr pd pf pr cls [ILazy fs] o = Ok (cls ++ "(" ++ join ", " (map (fun _ => "<lazy>") fs) ++ ")")%string.
Proof.
  intros F P. unfold lazy_repr. cbn [items_repr item_repr]. destruct (pending 0 (lo_data o)) as [d|]; [|now destruct P].
  assert (E : rmap_list (lazy_field_repr pd pf pr false (lo_attrs o)) fs = Ok (map (fun _ => "<lazy>"%string) fs)).
  { induction F as [|f fs (n & D) _ IH]; [reflexivity|]. cbn [rmap_list map]. rewrite IH. destruct f; try destruct D; reflexivity. }
  rewrite E. reflexivity.
Qed.
Lemma decoded_constant cls cctx n m k o : pending 0 (lo_data o) = None ->
  lazy_repr pd pf pr cls [ILazy [FConst n m k]] o = to_repr pd pf pr (MStruct cls cctx [FConst n m k]) (VObj cls (lo_attrs o)).
Proof.
  intros P. unfold lazy_repr. cbn [items_repr item_repr]. rewrite P. cbn [rmap_list lazy_field_repr]. rewrite repr_struct. cbn [fields_repr].
  destruct (field_repr pd pf pr (FConst n m k) (lo_attrs o)) as [t|e]; reflexivity.
Qed.
Lemma unset_fails items : forall o j n, lo_data o = [] -> lookup (lo_attrs o) n = None ->
  (exists fs f, In (ILazy fs) items /\ In f fs /\ declares n f /\ match f with FConst _ _ _ => False | _ => True end) -> exists e, items_repr pd pf pr o j items = Err e.
Proof.
  induction items as [|i items IH]; intros o j n P L (fs & f & I & J & D & C); [destruct I|]. cbn [items_repr].
  destruct I as [-> | I].
  - assert (E : exists e, item_repr pd pf pr o j (ILazy fs) = Err e).
    { unfold item_repr. rewrite P. cbn [pending]. assert (F : exists e, rmap_list (lazy_field_repr pd pf pr true (lo_attrs o)) fs = Err e).
      { clear - J D C L. induction fs as [|g fs IH]; [destruct J|]. cbn [rmap_list]. destruct J as [-> | J].
        - exists KeyError. destruct f; try destruct D; try destruct C; subst; cbn [lazy_field_repr]; now rewrite L.
        - destruct (IH J) as [e E]. rewrite E. destruct (lazy_field_repr pd pf pr true (lo_attrs o) g); cbn [rbind]; eauto. }
      destruct F as [e F]. rewrite F. cbn [rbind]. eauto. }
    destruct E as [e E]. rewrite E. cbn [rbind]. eauto.
  - destruct (item_repr pd pf pr o j i); cbn [rbind]; [|eauto]. destruct (IH o (S j) n P L) as [e E]; [exists fs, f; auto|]. rewrite E. cbn [rbind]. eauto.
Qed.
Lemma unset_first cls n m d fs o : pending 0 (lo_data o) = None -> lookup (lo_attrs o) n = None ->
  lazy_repr pd pf pr cls [ILazy (FField n m d :: fs)] o = Err KeyError.
Proof. intros P L. unfold lazy_repr. cbn [items_repr item_repr]. rewrite P. cbn [rmap_list lazy_field_repr]. now rewrite L. Qed.
Lemma new_unprintable h cls items kw n : Forall (item_ok h) items -> NoDup (flat_map item_names items) ->
  In n (flat_map group_names items) -> lookup kw n = None -> exists e, lazy_repr pd pf pr cls items (lazy_new items kw) = Err e.
Proof.
  intros H N G K. pose proof (new_unset h cls None items kw n H N G K) as U. unfold lazy_get in U.
  destruct (owner 0 items n) as [[k fs]|] eqn:Ow; [|now destruct (owner_none items n (ok_lazy h items H) 0 Ow)].
  destruct (owner_some items n (ok_lazy h items H) _ _ _ Ow) as (_ & Hk & I). rewrite Nat.sub_0_r in Hk. apply nth_error_In in Hk.
  assert (L : lookup (lo_attrs (lazy_new items kw)) n = None).
  { remember (lazy_new items kw) as o eqn:Eo. assert (P : lo_data o = []) by (subst; reflexivity). clear - U P.
    unfold sbind, instantiate, sget, slift in U. rewrite P in U. cbn [pending fst] in U. destruct (lookup (lo_attrs o) n); [discriminate U|reflexivity]. }
  destruct (unset_fails items (lazy_new items kw) 0%nat n eq_refl L) as [e E]; [|unfold lazy_repr; rewrite E; cbn [rbind]; eauto].
  rewrite Forall_forall in H. destruct (H _ Hk) as [F _]. rewrite Forall_forall in F. cbn [stored_names] in I.
  apply in_flat_map in I as (f & If & In'). exists fs, f. split; [exact Hk|]. split; [exact If|]. specialize (F f If).
  destruct f; try destruct F; cbn [stored_names] in In'; [|destruct In']. destruct In' as [-> |[]]. split; [reflexivity|exact Logic.I].
Qed.
End Text.

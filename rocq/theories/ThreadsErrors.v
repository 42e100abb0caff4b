(** What statements of threads that share an object may raise, whatever the threads do. *)
From Verif Require Import Base BaseProofs IntCodec BitStringIO Stream StreamSpec StreamProofs MinMax Marshal MarshalInd MarshalSpec
  FieldSpec FieldFacts SizeSpec SizeFacts SimFacts Lazy LazySpec LazyProofs LazyFacts Threads ThreadsSpec ThreadsFacts.
From Coq Require Import ZArith List Bool String Lia ZifyBool ZifyNat Arith.
Import ListNotations.
Open Scope Z_scope.

Section Errors.
Variables (h : host) (cls : name) (cctx : option ctx) (items : list item) (E : attrs).
Hypothesis Hall : Forall (item_ok h) items.
Hypothesis Hnd : NoDup (flat_map item_names items).

(** What a field access may give. *)
Definition allowed (u : op) (r : res value) : Prop :=
  match u with
  | OGet n => (exists v, r = Ok v) \/ r = Err AttributeError \/ (In n (flat_map group_names items) /\ r = Err KeyError)
  | OSet n _ => r = Ok VNone \/ (In n (flat_map group_names items) /\ r = Err AttributeError)
                \/ (~ In n (flat_map group_names items) /\ r = Err InstructError)
  | OBytes => True
  end.
(** The container is that of the field the statement is about. *)
Definition about (a : after) (k : nat) (fs : list field) : Prop :=
  nth_error items k = Some (ILazy fs) /\
  match a with
  | Access (OGet n) | Access (OSet n _) => In n (flat_map group_names items)
  | Access OBytes => False
  | Items _ _ _ => False
  | Fields k' _ l _ => skipn (S k') items = l
  end.
Definition lazily (a : after) : Prop := exists k fs, about a k fs.
Definition decent (t : thread) : Prop :=
  (forall u r, In (u, r) (th_got t) -> allowed u r)
  /\ match th_pc t with
     | Idle => True
     | Check u k fs | Params u k fs => about u k fs
     | Delete u k fs data c => about u k fs /\ yields h E fs (stream_of data)
     | Decode u s c fs | Store u _ _ s c fs => lazily u /\ yields h E fs s
     | Finish (Access u) => lazily (Access u)
     | Finish (Items k l out) => skipn k items = l
     | Finish (Fields k fs l out) => skipn (S k) items = l
     end.
Definition waiting (o : lobj) : Prop :=
  forall k data c, pending k (lo_data o) = Some (data, c) -> exists fs, nth_error items k = Some (ILazy fs) /\ decodes h cls cctx fs data c E.

Lemma finish_decent u r t : decent t -> allowed u r -> decent (finish u r t).
Proof.
  intros (P2 & _) R. split; [|exact Logic.I]. intros u' r' I. cbn [finish th_got] in I. apply in_app_iff in I as [I|[I|[]]]; [auto|]. now inversion I; subst.
Qed.
Lemma raises a : lazily a -> allowed (op_of a) (Err AttributeError).
Proof. intros (k & fs & _ & L). destruct a as [[n|n v|]|k' l out|k' gs l out]; cbn [op_of allowed]; auto. Qed.

Lemma tstep_decent o t o' t' : waiting o -> decent t -> tstep h cls cctx items o t = (o', t') -> waiting o' /\ decent t'.
Proof.
  intros G P. pose proof P as (P2 & P3). unfold tstep.
  destruct (th_pc t) as [|u k fs|u k fs|u k fs data c|u s c fs|u n v s c fs|u] eqn:Pc.
  - destruct (th_todo t) as [|u r] eqn:Td; [intros X; inversion X; subst; auto|].
    assert (Pl : forall n, target items u = None -> u = OGet n \/ (exists v, u = OSet n v) -> ~ In n (flat_map group_names items)).
    { intros n T [-> | (v & ->)]; cbn [target] in T; exact (owner_none items n (ok_lazy h items Hall) 0 T). }
    assert (Ta : forall k fs, target items u = Some (k, fs) -> about (Access u) k fs).
    { intros k fs T. destruct u as [n|n v|]; cbn [target] in T; [| |discriminate];
        destruct (owner_some items n (ok_lazy h items Hall) _ _ _ T) as (_ & Hk & I); rewrite Nat.sub_0_r in Hk; (split; [exact Hk|]; eapply not_group; eauto). }
    destruct u as [n|n v|].
    + destruct (target items (OGet n)) as [[k fs]|] eqn:T; intros X.
      * inversion X; subst. split; [exact G|]. split; [exact P2|]. cbn [th_pc]. now apply Ta.
      * cbn [plain_access] in X. inversion X; subst. split; [exact G|]. apply finish_decent; [split; [exact P2|exact Logic.I]|]. cbn [allowed].
        destruct (lookup (lo_attrs o') n); eauto.
    + destruct (target items (OSet n v)) as [[k fs]|] eqn:T; intros X.
      * inversion X; subst. split; [exact G|]. split; [exact P2|]. cbn [th_pc]. now apply Ta.
      * pose proof (Pl n eq_refl (or_intror (ex_intro _ v eq_refl))) as Nn. cbn [plain_access] in X.
        destruct (lookup (flat_map item_class_attrs items) n) as [k|]; inversion X; subst.
        -- split; [exact G|]. apply finish_decent; [split; [exact P2|exact Logic.I]|]. cbn [allowed]. destruct (py_eq v k); auto.
        -- split; [exact G|]. apply finish_decent; [split; [exact P2|exact Logic.I]|]. cbn [allowed]. auto.
    + intros X; inversion X; subst. split; [exact G|]. split; [exact P2|reflexivity].
  - destruct (pending k (lo_data o)); intros X; inversion X; subst; (split; [exact G|]; split; [exact P2|]); cbn [goto th_pc]; [exact P3|].
    destruct u; [exists k, fs; exact P3|destruct P3; contradiction|exact (proj2 P3)].
  - destruct (pending k (lo_data o)) as [[data c]|] eqn:Pd; intros X; inversion X; subst; (split; [exact G|]).
    + split; [exact P2|]. cbn [goto th_pc]. split; [exact P3|]. destruct (G k data c Pd) as (fs' & Hk & D). destruct P3 as [Hk' _].
      assert (fs' = fs) as -> by congruence. eapply decodes_yields; eauto.
    + apply finish_decent; [exact P|]. apply raises. exists k, fs. exact P3.
  - destruct P3 as [A Y]. destruct (pending k (lo_data o)) as [d|] eqn:Pd; intros X; inversion X; subst.
    + split.
      * intros k' data' c'. cbn [lo_data]. rewrite pending_forget. destruct (Nat.eqb k' k); [discriminate|]. apply G.
      * split; [exact P2|]. cbn [goto th_pc]. split; [exists k, fs; exact A|exact Y].
    + split; [exact G|]. apply finish_decent; [exact P|]. apply raises. exists k, fs. exact A.
  - destruct P3 as [A Y]. destruct fs as [|f r].
    + intros X; inversion X; subst. split; [exact G|]. split; [exact P2|]. cbn [goto th_pc]. destruct A as (k & gs & A). destruct u; [exists k, gs; exact A|destruct A; contradiction|exact (proj2 A)].
    + destruct f as [n m d|m| | | | |]; cbn [yields] in Y; try contradiction.
      * destruct Y as (v & s1 & R & _ & Y). rewrite R. intros X; inversion X; subst. split; [exact G|]. split; [exact P2|]. cbn [goto th_pc]. auto.
      * destruct Y as (v & s1 & R & Y). rewrite R. intros X; inversion X; subst. split; [exact G|]. split; [exact P2|]. cbn [goto th_pc]. auto.
  - destruct P3 as [A Y]. intros X; inversion X; subst. split; [exact G|]. split; [exact P2|]. cbn [goto th_pc]. auto.
  - destruct u as [u|k l out|k fs l out]; cbn [go].
    + destruct P3 as (k & fs & _ & L). destruct u as [n|n v|]; [| |contradiction]; cbn [access]; intros X; inversion X; subst; (split; [exact G|]; apply finish_decent; [exact P|]); cbn [allowed].
      * destruct (lookup (lo_attrs o') n); eauto.
      * auto.
    + assert (Nx : forall i r, l = i :: r -> nth_error items k = Some i /\ skipn (S k) items = r).
      { intros i r ->. clear - P3. revert k P3. induction items as [|j js IH]; intros k P3; [destruct k; discriminate|].
        destruct k as [|k]; [injection P3 as -> ->; split; reflexivity|]. exact (IH k P3). }
      destruct l as [|[f|fs] l].
      * intros X; inversion X; subst. split; [exact G|]. now apply finish_decent.
      * destruct (write_field h f (lo_attrs o) out) as [[w|e] out']; intros X; inversion X; subst; (split; [exact G|]); [|now apply finish_decent].
        split; [exact P2|]. exact (proj2 (Nx _ _ eq_refl)).
      * intros X; inversion X; subst. split; [exact G|]. split; [exact P2|]. cbn [goto th_pc]. exact (Nx _ _ eq_refl).
    + destruct fs as [|f fs].
      * intros X; inversion X; subst. split; [exact G|]. split; [exact P2|reflexivity].
      * destruct (write_lazy_field h f (lo_attrs o) out) as [[w|e] out']; intros X; inversion X; subst; (split; [exact G|]); [|now apply finish_decent]. split; [exact P2|reflexivity].
Qed.
Definition calm (w : shared) : Prop := waiting (sh_obj w) /\ forall t, In t (sh_threads w) -> decent t.
Lemma schedule_calm l : forall w, calm w -> calm (schedule h cls cctx items l w).
Proof.
  induction l as [|i l IH]; intros w [G D]; [split; assumption|]. cbn [schedule]. apply IH. unfold sstep.
  destruct (nth_error (sh_threads w) i) as [t|] eqn:Ht; [|split; assumption].
  destruct (tstep h cls cctx items (sh_obj w) t) as [o' t'] eqn:St.
  destruct (tstep_decent _ _ _ _ G (D t (nth_error_In _ _ Ht)) St) as [G' D']. split; cbn [sh_obj sh_threads]; [exact G'|].
  intros x Hx. apply put_in in Hx as [->|Hx]; auto.
Qed.
End Errors.

Lemma shared_errors h cls cctx items c s E s' programs : Forall (item_ok h) items -> NoDup (flat_map item_names items) -> stream_ok s ->
  read h (MStruct cls cctx (map eager items)) c s = (Ok (VObj cls E), s') ->
  exists o, lazy_read h cls cctx items c s = (Ok o, s') /\ forall l i u r,
    In (u, r) (got (schedule h cls cctx items l (start o programs)) i) -> allowed items u r.
Proof.
  intros Hall Hnd O Er. destruct (read_reading h cls cctx items c s E s' Hall Hnd O Er) as (o & R & Rd). exists o. split; [exact R|].
  intros l i u r I. pose proof (reading_refines h cls cctx items E o Rd) as Rf.
  assert (C : calm h cls cctx items E (schedule h cls cctx items l (start o programs))).
  { apply schedule_calm; [exact Hall|exact Hnd|]. split.
    - exact (rf_pending _ _ _ _ _ _ Rf).
    - intros t Ht. cbn [start sh_threads] in Ht. apply in_map_iff in Ht as (q & <- & Hq). split; [intros ? ? []|exact Logic.I]. }
  unfold got in I. destruct (nth_error _ i) as [t|] eqn:Ht; [|destruct I].
  destruct C as [_ D]. destruct (D t (nth_error_In _ _ Ht)) as (P & _). exact (P u r I).
Qed.

(** Particular schedules: a thread that runs alone, and the races. *)
From Verif Require Import Base BaseProofs IntCodec BitStringIO Stream StreamSpec StreamProofs MinMax Marshal MarshalInd MarshalSpec
  FieldSpec FieldFacts SizeSpec SizeFacts SimFacts Lazy LazySpec LazyProofs LazyFacts Threads ThreadsSpec ThreadsFacts.
From Coq Require Import ZArith List Bool String Lia ZifyBool ZifyNat Arith.
Import ListNotations.
Open Scope Z_scope.

Lemma put_put i t t' l : put i t (put i t' l) = put i t l.
Proof. revert i. induction l as [|x l IH]; intros [|i]; cbn; auto. now rewrite IH. Qed.
Lemma put_same i t l : nth_error l i = Some t -> put i t l = l.
Proof. revert i. induction l as [|x l IH]; intros [|i] H; cbn in *; try congruence. now rewrite IH. Qed.

Section Run.
Variables (h : host) (cls : name) (cctx : option ctx) (items : list item).
Notation run := (schedule h cls cctx items).
Lemma schedule_app l1 : forall l2 w, run (l1 ++ l2) w = run l2 (run l1 w).
Proof. induction l1 as [|i l1 IH]; intros l2 w; [reflexivity|]. cbn [app schedule]. apply IH. Qed.
Lemma step_at i o l t o' t' : nth_error l i = Some t -> tstep h cls cctx items o t = (o', t') -> run [i] (mkShared o l) = mkShared o' (put i t' l).
Proof. intros H S. cbn [schedule]. unfold sstep. cbn [sh_threads sh_obj]. now rewrite H, S. Qed.

(** A thread that decodes a container, undisturbed. *)
Lemma decode_run fs : Forall lazy_field_ok fs -> forall s o l i t u c, nth_error l i = Some t -> th_pc t = Decode u s c fs ->
  exists N, run (repeat i N) (mkShared o l)
    = mkShared (mkLobj (snd (snd (read_fields h cls cctx fs c (s, lo_attrs o)))) (lo_data o))
        (put i (match fst (read_fields h cls cctx fs c (s, lo_attrs o)) with Ok _ => goto (Finish u) t | Err e => finish (op_of u) (Err e) t end) l).
Proof.
  induction 1 as [|f r Hf _ IH]; intros s o l i t u c Ht Pc.
  - exists 1%nat. apply step_at with t; [exact Ht|]. unfold tstep. rewrite Pc. now destruct o.
  - assert (Nn : forall t', nth_error (put i t' l) i = Some t') by (intros t'; apply put_nth; congruence).
    rewrite read_fields_cons. unfold sbind. destruct f as [n m d|m| | | | |]; try contradiction.
    + rewrite read_field_field. destruct (read h m (get_updated_context cctx (VObj cls (lo_attrs o)) c) s) as [[v|e] s1] eqn:R.
      * set (o1 := mkLobj (set_attr (lo_attrs o) n v) (lo_data o)).
        destruct (IH s1 o1 (put i (goto (Decode u s1 c r) t) l) i (goto (Decode u s1 c r) t) u c (Nn _) eq_refl) as (N & X).
        exists (2 + N)%nat. change (repeat i (2 + N)) with ([i] ++ [i] ++ repeat i N). rewrite !schedule_app.
        rewrite (step_at i o l t o (goto (Store u n v s1 c r) t)); [|exact Ht|unfold tstep; now rewrite Pc, R].
        rewrite (step_at i o _ _ o1 (goto (Decode u s1 c r) (goto (Store u n v s1 c r) t)) (Nn _)); [|reflexivity]. rewrite put_put.
        change (goto (Decode u s1 c r) (goto (Store u n v s1 c r) t)) with (goto (Decode u s1 c r) t). rewrite X, put_put. reflexivity.
      * exists 1%nat. change (repeat i 1) with [i]. rewrite (step_at i o l t o (finish (op_of u) (Err e) t)); [|exact Ht|unfold tstep; now rewrite Pc, R]. now destruct o.
    + rewrite read_field_anon. destruct (read h m (get_updated_context cctx (VObj cls (lo_attrs o)) c) s) as [[v|e] s1] eqn:R.
      * destruct (IH s1 o (put i (goto (Decode u s1 c r) t) l) i (goto (Decode u s1 c r) t) u c (Nn _) eq_refl) as (N & X).
        exists (1 + N)%nat. change (repeat i (1 + N)) with ([i] ++ repeat i N). rewrite !schedule_app.
        rewrite (step_at i o l t o (goto (Decode u s1 c r) t)); [|exact Ht|unfold tstep; now rewrite Pc, R]. rewrite X, put_put. reflexivity.
      * exists 1%nat. change (repeat i 1) with [i]. rewrite (step_at i o l t o (finish (op_of u) (Err e) t)); [|exact Ht|unfold tstep; now rewrite Pc, R]. now destruct o.
Qed.

(** A container is decoded if needed. *)
Lemma check_run a k fs r g o l i : Forall lazy_field_ok fs -> nth_error l i = Some (mkThread r (Check a k fs) g) ->
  exists N, run (repeat i N) (mkShared o l)
    = mkShared (snd (instantiate h cls cctx k fs o))
        (put i (match fst (instantiate h cls cctx k fs o) with Ok _ => mkThread r (Finish a) g | Err e => mkThread r Idle (g ++ [(op_of a, Err e)]) end) l).
Proof.
  intros Hfs Ht. assert (Nn : forall t', nth_error (put i t' l) i = Some t') by (intros t'; apply put_nth; congruence).
  unfold instantiate. destruct (pending k (lo_data o)) as [[data c]|] eqn:Pd.
  - set (o1 := mkLobj (lo_attrs o) (forget k (lo_data o))). set (td := mkThread r (Decode a (stream_of data) c fs) g).
    destruct (decode_run fs Hfs (stream_of data) o1 (put i td l) i td a c (Nn _) eq_refl) as (N & X). cbn [o1 lo_attrs lo_data] in X. rewrite put_put in X.
    exists (3 + N)%nat. change (repeat i (3 + N)) with ([i] ++ [i] ++ [i] ++ repeat i N). rewrite !schedule_app.
    rewrite (step_at i o _ _ o (mkThread r (Params a k fs) g) Ht) by (unfold tstep; cbn [th_pc]; now rewrite Pd).
    rewrite (step_at i o _ _ o (mkThread r (Delete a k fs data c) g) (Nn _)) by (unfold tstep; cbn [th_pc]; now rewrite Pd). rewrite put_put.
    rewrite (step_at i o _ _ o1 td (Nn _)) by (unfold tstep; cbn [th_pc]; now rewrite Pd). rewrite put_put, X.
    destruct (read_fields h cls cctx fs c (stream_of data, lo_attrs o)) as [[[]|e] [s' a']]; reflexivity.
  - exists 1%nat. apply step_at with (mkThread r (Check a k fs) g); [exact Ht|]. unfold tstep. cbn [th_pc]. rewrite Pd. reflexivity.
Qed.
(** The fields of a container are written. *)
Lemma fields_run fs k rest_ r g o : forall out l i, nth_error l i = Some (mkThread r (Finish (Fields k fs rest_ out)) g) ->
  exists N, run (repeat i N) (mkShared o l)
    = mkShared o (put i (match write_lazy_fields h fs (lo_attrs o) out with (Ok _, out') => mkThread r (Finish (Items (S k) rest_ out')) g | (Err e, _) => mkThread r Idle (g ++ [(OBytes, Err e)]) end) l).
Proof.
  induction fs as [|f fs IH]; intros out l i Ht; (assert (Nn : forall t', nth_error (put i t' l) i = Some t') by (intros t'; apply put_nth; congruence)).
  - exists 1%nat. apply step_at with (mkThread r (Finish (Fields k [] rest_ out)) g); [exact Ht|reflexivity].
  - cbn [write_lazy_fields]. unfold sbind. destruct (write_lazy_field h f (lo_attrs o) out) as [[u|e] out'] eqn:W.
    + destruct (IH out' _ i (Nn (mkThread r (Finish (Fields k fs rest_ out')) g))) as (N & X). exists (1 + N)%nat. change (repeat i (1 + N)) with ([i] ++ repeat i N). rewrite schedule_app.
      rewrite (step_at i o _ _ o (mkThread r (Finish (Fields k fs rest_ out')) g) Ht) by (unfold tstep; cbn [th_pc go]; now rewrite W). rewrite X, put_put. reflexivity.
    + exists 1%nat. apply step_at with (mkThread r (Finish (Fields k (f :: fs) rest_ out)) g); [exact Ht|]. unfold tstep. cbn [th_pc go]. now rewrite W.
Qed.
Lemma items_run its : Forall lazy_ok its -> forall k r g o out l i, nth_error l i = Some (mkThread r (Finish (Items k its out)) g) ->
  exists N, run (repeat i N) (mkShared o l)
    = mkShared (fst (snd (write_items h cls cctx k its (o, out))))
        (put i (mkThread r Idle (g ++ [(OBytes, match fst (write_items h cls cctx k its (o, out)) with Ok _ => Ok (VBytes (snd (snd (write_items h cls cctx k its (o, out))))) | Err e => Err e end)])) l).
Proof.
  induction 1 as [|x its Hx _ IH]; intros k r g o out l i Ht; (assert (Nn : forall t', nth_error (put i t' l) i = Some t') by (intros t'; apply put_nth; congruence)).
  - exists 1%nat. apply step_at with (mkThread r (Finish (Items k [] out)) g); [exact Ht|reflexivity].
  - cbn [write_items]. unfold sbind. destruct x as [f|fs]; unfold write_item; cbn [fst snd].
    + destruct (write_field h f (lo_attrs o) out) as [[u|e] out'] eqn:W.
      * destruct (IH (S k) r g o out' _ i (Nn (mkThread r (Finish (Items (S k) its out')) g))) as (N & X). exists (1 + N)%nat. change (repeat i (1 + N)) with ([i] ++ repeat i N). rewrite schedule_app.
        rewrite (step_at i o _ _ o (mkThread r (Finish (Items (S k) its out')) g) Ht) by (unfold tstep; cbn [th_pc go]; now rewrite W). rewrite X, put_put. reflexivity.
      * exists 1%nat. apply step_at with (mkThread r (Finish (Items k (IField f :: its) out)) g); [exact Ht|]. unfold tstep. cbn [th_pc go]. now rewrite W.
    + destruct Hx as [Hfs _].
      assert (S1 : run [i] (mkShared o l) = mkShared o (put i (mkThread r (Check (Fields k fs its out) k fs) g) l)) by (apply step_at with (mkThread r (Finish (Items k (ILazy fs :: its) out)) g); [exact Ht|reflexivity]).
      destruct (check_run (Fields k fs its out) k fs r g o _ i Hfs (Nn _)) as (N1 & X1). rewrite put_put in X1.
      destruct (instantiate h cls cctx k fs o) as [[[]|e] o1]; cbn [fst snd] in X1 |- *.
      * destruct (fields_run fs k its r g o1 out _ i (Nn _)) as (N2 & X2). rewrite put_put in X2.
        destruct (write_lazy_fields h fs (lo_attrs o1) out) as [[u|e] out'].
        -- destruct (IH (S k) r g o1 out' _ i (Nn (mkThread r (Finish (Items (S k) its out')) g))) as (N3 & X3). rewrite put_put in X3.
           exists (1 + (N1 + (N2 + N3)))%nat. change (repeat i (1 + (N1 + (N2 + N3)))) with ([i] ++ repeat i (N1 + (N2 + N3))). rewrite !repeat_app, !schedule_app, S1, X1, X2, X3. reflexivity.
        -- exists (1 + (N1 + N2))%nat. change (repeat i (1 + (N1 + N2))) with ([i] ++ repeat i (N1 + N2)). rewrite !repeat_app, !schedule_app, S1, X1, X2. reflexivity.
      * exists (1 + N1)%nat. change (repeat i (1 + N1)) with ([i] ++ repeat i N1). rewrite schedule_app, S1, X1. reflexivity.
Qed.

(** A statement, as in Lazy.v. *)
Definition alone (u : op) (o : lobj) : res value * lobj :=
  match u with
  | OGet n => lazy_get h cls cctx items n o
  | OSet n v => match lazy_set h cls cctx items n v o with (Ok _, o') => (Ok VNone, o') | (Err e, o') => (Err e, o') end
  | OBytes => match lazy_to_bytes h cls cctx items o with (Ok b, o') => (Ok (VBytes b), o') | (Err e, o') => (Err e, o') end
  end.
Definition goes (k : nat) (fs : list field) (u : op) (o : lobj) : res value * lobj :=
  match instantiate h cls cctx k fs o with (Ok _, o') => access u o' | (Err e, o') => (Err e, o') end.
Lemma alone_lazy u o k fs : target items u = Some (k, fs) -> alone u o = goes k fs u o.
Proof.
  intros Ow. unfold alone, goes. destruct u as [n|n v|]; cbn [target] in Ow; [| |discriminate]; unfold lazy_get, lazy_set; rewrite Ow; unfold sbind; destruct (instantiate h cls cctx k fs o) as [[[]|e] o']; reflexivity.
Qed.
Lemma alone_plain u o : u <> OBytes -> target items u = None -> alone u o = plain_access items u o.
Proof.
  intros Nu Ow. unfold alone, plain_access. destruct u as [n|n v|]; cbn [target] in Ow; [| |contradiction]; unfold lazy_get, lazy_set; rewrite Ow; unfold sbind, sget, slift; [reflexivity|].
  destruct (lookup (flat_map item_class_attrs items) n) as [k|]; [|reflexivity]. now destruct (py_eq v k).
Qed.
Lemma target_group u k fs : Forall lazy_ok items -> target items u = Some (k, fs) -> Forall lazy_field_ok fs.
Proof.
  intros Hok Ow. assert (exists n, owner 0 items n = Some (k, fs)) as (n & On) by (destruct u as [n|n v|]; [eauto|eauto|discriminate]).
  destruct (owner_some items n Hok _ _ _ On) as (_ & Hk & _). apply nth_error_In in Hk. apply (proj1 (Forall_forall _ _) Hok _ Hk).
Qed.
Lemma alone_run u r g o l i : Forall lazy_ok items -> nth_error l i = Some (mkThread (u :: r) Idle g) ->
  exists N, run (repeat i N) (mkShared o l) = mkShared (snd (alone u o)) (put i (mkThread r Idle (g ++ [(u, fst (alone u o))])) l).
Proof.
  intros Hok Ht. assert (Nn : forall t', nth_error (put i t' l) i = Some t') by (intros t'; apply put_nth; congruence).
  assert (Cases : u = OBytes \/ u <> OBytes) by (destruct u; [right; discriminate|right; discriminate|now left]). destruct Cases as [-> | Nu].
  - destruct (items_run items Hok 0 r g o [] _ i (Nn (mkThread r (Finish (Items 0 items [])) g))) as (N & X). rewrite put_put in X. exists (1 + N)%nat. change (repeat i (1 + N)) with ([i] ++ repeat i N).
    rewrite schedule_app, (step_at i o _ _ o (mkThread r (Finish (Items 0 items [])) g) Ht) by reflexivity. rewrite X. cbn [alone]. unfold lazy_to_bytes.
    destruct (write_items h cls cctx 0 items (o, [])) as [[v|e] [o' out]]; reflexivity.
  - destruct (target items u) as [[k fs]|] eqn:Ow.
    + rewrite (alone_lazy u o k fs Ow). unfold goes. pose proof (target_group u k fs Hok Ow) as Hfs.
      assert (S1 : run [i] (mkShared o l) = mkShared o (put i (mkThread r (Check (Access u) k fs) g) l)).
      { apply step_at with (mkThread (u :: r) Idle g); [exact Ht|]. unfold tstep. cbn [th_pc th_todo]. rewrite Ow. destruct u; [reflexivity|reflexivity|contradiction]. }
      destruct (check_run (Access u) k fs r g o _ i Hfs (Nn _)) as (N & X). rewrite put_put in X. destruct (instantiate h cls cctx k fs o) as [[[]|e] o1]; cbn [fst snd op_of] in X.
      * exists (1 + (N + 1))%nat. change (repeat i (1 + (N + 1))) with ([i] ++ repeat i (N + 1)). rewrite repeat_app, !schedule_app, S1, X.
        rewrite (step_at i o1 _ _ (snd (access u o1)) (mkThread r Idle (g ++ [(u, fst (access u o1))])) (Nn _)); [now rewrite put_put|].
        unfold tstep. cbn [th_pc go]. destruct (access u o1). reflexivity.
      * exists (1 + N)%nat. change (repeat i (1 + N)) with ([i] ++ repeat i N). rewrite schedule_app, S1, X. reflexivity.
    + exists 1%nat. rewrite (alone_plain u o Nu Ow). apply step_at with (mkThread (u :: r) Idle g); [exact Ht|]. unfold tstep. cbn [th_pc th_todo]. rewrite Ow.
      destruct u; [| |contradiction]; destruct (plain_access items _ o); reflexivity.
Qed.
Lemma alone_use u o : use_lazy h cls cctx items (use_of u) o = (answer_of (u, fst (alone u o)), snd (alone u o)).
Proof.
  destruct u as [n|n v|]; cbn [use_of use_lazy answer_of fst snd alone]; [now destruct (lazy_get h cls cctx items n o)| |].
  - destruct (lazy_set h cls cctx items n v o) as [[[]|e] o']; reflexivity.
  - destruct (lazy_to_bytes h cls cctx items o) as [[b|e] o']; reflexivity.
Qed.
Lemma alone_history us : Forall lazy_ok items -> forall g o, exists N o' g', run (repeat 0%nat N) (mkShared o [mkThread us Idle g]) = mkShared o' [mkThread [] Idle (g ++ g')]
  /\ map answer_of g' = history_lazy h cls cctx items (map use_of us) o /\ map fst g' = us.
Proof.
  intros Hok. induction us as [|u us IH]; intros g o.
  - exists 0%nat, o, []. rewrite app_nil_r. auto.
  - destruct (alone_run u us g o [mkThread (u :: us) Idle g] 0 Hok eq_refl) as (N & X). cbn [put] in X.
    destruct (IH (g ++ [(u, fst (alone u o))]) (snd (alone u o))) as (N' & o' & g' & Y & A & F).
    exists (N + N')%nat, o', ((u, fst (alone u o)) :: g'). rewrite repeat_app, schedule_app, X, Y, <- app_assoc. split; [reflexivity|].
    cbn [map history_lazy]. rewrite alone_use, A, F. auto.
Qed.
End Run.

(** ** The races *)
Section Race.
Variables (h : host) (cls : name) (cctx : option ctx) (items : list item) (E : attrs) (o : lobj).
Hypothesis Hall : Forall (item_ok h) items.
Hypothesis Hnd : NoDup (flat_map item_names items).
Hypothesis Hrd : reading h cls cctx items (List.length items) E o.
Notation run := (schedule h cls cctx items).

Lemma group_owner n k fs : nth_error items k = Some (ILazy fs) -> In n (flat_map stored_names fs) -> owner 0 items n = Some (k, fs).
Proof.
  intros Hk I. destruct (owner 0 items n) as [[k' fs']|] eqn:Ow.
  - destruct (owner_some items n (ok_lazy h items Hall) _ _ _ Ow) as (_ & Hk' & I'). rewrite Nat.sub_0_r in Hk'.
    assert (k' = k) as -> by (eapply group_unique; eauto). congruence.
  - exfalso. apply (owner_none items n (ok_lazy h items Hall) 0 Ow). eapply not_group; eauto.
Qed.
(** The first thread has taken the data of the container and is about to decode it. *)
Lemma opening l n k fs : nth_error items k = Some (ILazy fs) -> In n (flat_map stored_names fs) ->
  nth_error l 0 = Some (mkThread [OGet n] Idle []) ->
  exists data c, decodes h cls cctx fs data c E
    /\ run [0; 0; 0; 0]%nat (mkShared o l) = mkShared (mkLobj (lo_attrs o) (forget k (lo_data o))) (put 0 (mkThread [] (Decode (Access (OGet n)) (stream_of data) c fs) []) l).
Proof.
  intros Hk I Ht. assert (Lk : (k < List.length items)%nat) by (apply nth_error_Some; congruence).
  destruct (rd_in _ _ _ _ _ _ _ Hrd k fs Lk Hk) as (data & c & Pd & D). exists data, c. split; [exact D|].
  pose proof (group_owner n k fs Hk I) as Ow. 
  assert (Nn : forall t', nth_error (put 0 t' l) 0 = Some t') by (intros t'; apply put_nth; congruence).
  change [0; 0; 0; 0]%nat with ([0] ++ [0] ++ [0] ++ [0])%nat. rewrite !schedule_app.
  rewrite (step_at h cls cctx items 0 o l _ o (mkThread [] (Check (Access (OGet n)) k fs) []) Ht) by (unfold tstep; cbn [th_pc th_todo target]; now rewrite Ow).
  rewrite (step_at h cls cctx items 0 o _ _ o (mkThread [] (Params (Access (OGet n)) k fs) []) (Nn _)) by (unfold tstep; cbn [th_pc]; now rewrite Pd). rewrite put_put.
  rewrite (step_at h cls cctx items 0 o _ _ o (mkThread [] (Delete (Access (OGet n)) k fs data c) []) (Nn _)) by (unfold tstep; cbn [th_pc]; now rewrite Pd). rewrite put_put.
  rewrite (step_at h cls cctx items 0 o _ _ (mkLobj (lo_attrs o) (forget k (lo_data o))) (mkThread [] (Decode (Access (OGet n)) (stream_of data) c fs) []) (Nn _)) by (unfold tstep; cbn [th_pc]; now rewrite Pd).
  now rewrite put_put.
Qed.
(** It decodes it and gets its value. *)
Lemma closing n fs k data c attrs_ d t1 : nth_error items k = Some (ILazy fs) -> In n (flat_map stored_names fs) -> decodes h cls cctx fs data c E ->
  exists N vals v, run (repeat 0%nat N) (mkShared (mkLobj attrs_ d) [mkThread [] (Decode (Access (OGet n)) (stream_of data) c fs) []; t1])
    = mkShared (mkLobj (set_all vals attrs_) d) [mkThread [] Idle [(OGet n, Ok v)]; t1]
    /\ lookup E n = Some v /\ map fst vals = flat_map stored_names fs /\ (forall m x, In (m, x) vals -> lookup E m = Some x).
Proof.
  intros Hk I (vals & s' & R & Nm & V). pose proof (group_nodup items Hnd k fs Hk) as Nd.
  destruct (decode_run h cls cctx items fs (group_ok h items Hall k fs Hk) (stream_of data) (mkLobj attrs_ d) [mkThread [] (Decode (Access (OGet n)) (stream_of data) c fs) []; t1] 0
    (mkThread [] (Decode (Access (OGet n)) (stream_of data) c fs) []) (Access (OGet n)) c eq_refl eq_refl) as (N & X). cbn [lo_attrs lo_data] in X. rewrite R in X. cbn [fst snd put goto th_todo th_got] in X.
  assert (exists v, In (n, v) vals) as (v & Iv). { rewrite <- Nm in I. apply in_map_iff in I as ([m v] & <- & I). eauto. }
  exists (N + 1)%nat, vals, v. rewrite repeat_app, schedule_app, X. split; [|split; [now apply V|split; [exact Nm|exact V]]].
  change (repeat 0%nat 1) with [0%nat].
  apply (step_at h cls cctx items 0 (mkLobj (set_all vals attrs_) d) (_ :: t1 :: nil) (goto (Finish (Access (OGet n))) (mkThread [] (Decode (Access (OGet n)) (stream_of data) c fs) [])) _ (mkThread [] Idle [(OGet n, Ok v)]) eq_refl).
  unfold tstep. cbn [goto th_pc go access lo_attrs]. rewrite (set_all_in vals) with (v := v); [reflexivity|now rewrite Nm|exact Iv].
Qed.
(** The object afterwards. *)
Lemma settled k fs vals extra : nth_error items k = Some (ILazy fs) -> map fst vals = flat_map stored_names fs -> (forall m x, In (m, x) vals -> lookup E m = Some x) ->
  incl (map fst extra) (flat_map stored_names fs) -> refines h cls cctx items E (mkLobj (set_all vals (set_all extra (lo_attrs o))) (forget k (lo_data o))).
Proof.
  intros Hk Nm V In_. pose proof (reading_refines h cls cctx items E o Hrd) as [P1 P2 P3]. pose proof (group_nodup items Hnd k fs Hk) as Nd. split; cbn [lo_attrs lo_data].
  - intros k' data' c'. rewrite pending_forget. destruct (Nat.eqb k' k); [discriminate|]. apply P1.
  - intros n H. destruct (in_dec String.string_dec n (map fst vals)) as [I|I].
    + apply in_map_iff in I as ([m v] & <- & I). cbn [fst]. rewrite (V m v I). apply set_all_in; [now rewrite Nm|exact I].
    + rewrite set_all_other by exact I. rewrite set_all_other by (intros J; apply I; rewrite Nm; now apply In_). apply P2. intros k' fs' Hk2 I'. specialize (H k' fs' Hk2 I'). rewrite pending_forget in H.
      destruct (Nat.eqb_spec k' k) as [Ek|]; [|exact H]. subst k'. assert (fs' = fs) as -> by congruence. rewrite Nm in I. contradiction.
  - exact P3.
Qed.

Hypothesis Hunset : forall n, In n (flat_map group_names items) -> lookup (lo_attrs o) n = None.

Lemma race_key n : In n (flat_map group_names items) -> exists l,
  over (run l (start o [[OGet n]; [OGet n]])) /\ got (run l (start o [[OGet n]; [OGet n]])) 0 = [(OGet n, py_getattr (VObj cls E) n)]
  /\ got (run l (start o [[OGet n]; [OGet n]])) 1 = [(OGet n, Err KeyError)].
Proof.
  intros G. destruct (group_of items n G) as (k & fs & Hk & I). unfold start. cbn [map].
  destruct (opening [mkThread [OGet n] Idle []; mkThread [OGet n] Idle []] n k fs Hk I eq_refl) as (data & c & D & S4). cbn [put] in S4.
  destruct (closing n fs k data c (lo_attrs o) (forget k (lo_data o)) (mkThread [] Idle [(OGet n, Err KeyError)]) Hk I D) as (N & vals & v & X & Ev & _).
  exists ([0; 0; 0; 0] ++ [1; 1; 1] ++ repeat 0 N)%nat. rewrite !schedule_app, S4.
  assert (S3 : run [1; 1; 1]%nat (mkShared (mkLobj (lo_attrs o) (forget k (lo_data o))) [mkThread [] (Decode (Access (OGet n)) (stream_of data) c fs) []; mkThread [OGet n] Idle []])
    = mkShared (mkLobj (lo_attrs o) (forget k (lo_data o))) [mkThread [] (Decode (Access (OGet n)) (stream_of data) c fs) []; mkThread [] Idle [(OGet n, Err KeyError)]]).
  { change [1; 1; 1]%nat with ([1] ++ [1] ++ [1])%nat. rewrite !schedule_app. set (o1 := mkLobj (lo_attrs o) (forget k (lo_data o))).
    rewrite (step_at h cls cctx items 1 o1 [_; mkThread [OGet n] Idle []] (mkThread [OGet n] Idle []) o1 (mkThread [] (Check (Access (OGet n)) k fs) []) eq_refl) by (unfold tstep; cbn [th_pc th_todo target]; now rewrite (group_owner n k fs Hk I)). cbn [put].
    rewrite (step_at h cls cctx items 1 o1 [_; mkThread [] (Check (Access (OGet n)) k fs) []] (mkThread [] (Check (Access (OGet n)) k fs) []) o1 (mkThread [] (Finish (Access (OGet n))) []) eq_refl) by (unfold tstep; cbn [th_pc o1 lo_data]; now rewrite pending_forget, Nat.eqb_refl). cbn [put].
    apply (step_at h cls cctx items 1 o1 [_; mkThread [] (Finish (Access (OGet n))) []] (mkThread [] (Finish (Access (OGet n))) [])); [reflexivity|]. unfold tstep. cbn [th_pc go access o1 lo_attrs lo_data]. now rewrite (Hunset n G). }
  rewrite S3, X. unfold py_getattr. rewrite Ev. split; [|split; reflexivity]. intros t [<-|[<-|[]]]; auto.
Qed.
Lemma race_attr n : In n (flat_map group_names items) -> exists l,
  over (run l (start o [[OGet n]; [OGet n]])) /\ got (run l (start o [[OGet n]; [OGet n]])) 0 = [(OGet n, py_getattr (VObj cls E) n)]
  /\ got (run l (start o [[OGet n]; [OGet n]])) 1 = [(OGet n, Err AttributeError)].
Proof.
  intros G. destruct (group_of items n G) as (k & fs & Hk & I). unfold start. cbn [map].
  assert (Lk : (k < List.length items)%nat) by (apply nth_error_Some; congruence). destruct (rd_in _ _ _ _ _ _ _ Hrd k fs Lk Hk) as (data0 & c0 & Pd & _).
  destruct (opening [mkThread [OGet n] Idle []; mkThread [] (Params (Access (OGet n)) k fs) []] n k fs Hk I eq_refl) as (data & c & D & S4). cbn [put] in S4.
  destruct (closing n fs k data c (lo_attrs o) (forget k (lo_data o)) (mkThread [] (Params (Access (OGet n)) k fs) []) Hk I D) as (N & vals & v & X & Ev & _).
  exists ([1; 1] ++ [0; 0; 0; 0] ++ repeat 0 N ++ [1])%nat. rewrite !schedule_app.
  assert (S2 : run [1; 1]%nat (mkShared o [mkThread [OGet n] Idle []; mkThread [OGet n] Idle []]) = mkShared o [mkThread [OGet n] Idle []; mkThread [] (Params (Access (OGet n)) k fs) []]).
  { change [1; 1]%nat with ([1] ++ [1])%nat. rewrite !schedule_app.
    rewrite (step_at h cls cctx items 1 o [_; mkThread [OGet n] Idle []] (mkThread [OGet n] Idle []) o (mkThread [] (Check (Access (OGet n)) k fs) []) eq_refl) by (unfold tstep; cbn [th_pc th_todo target]; now rewrite (group_owner n k fs Hk I)). cbn [put].
    apply (step_at h cls cctx items 1 o [_; mkThread [] (Check (Access (OGet n)) k fs) []] (mkThread [] (Check (Access (OGet n)) k fs) [])); [reflexivity|]. unfold tstep. cbn [th_pc]. now rewrite Pd. }
  rewrite S2, S4, X.
  rewrite (step_at h cls cctx items 1 _ [_; mkThread [] (Params (Access (OGet n)) k fs) []] (mkThread [] (Params (Access (OGet n)) k fs) []) (mkLobj (set_all vals (lo_attrs o)) (forget k (lo_data o))) (mkThread [] Idle [(OGet n, Err AttributeError)]) eq_refl)
    by (unfold tstep; cbn [th_pc lo_data]; now rewrite pending_forget, Nat.eqb_refl). cbn [put].
  unfold py_getattr. rewrite Ev. split; [|split; reflexivity]. intros t [<-|[<-|[]]]; auto.
Qed.
Lemma race_lost n x : In n (flat_map group_names items) -> exists l,
  over (run l (start o [[OGet n]; [OSet n x]])) /\ got (run l (start o [[OGet n]; [OSet n x]])) 1 = [(OSet n x, Ok VNone)]
  /\ forall us, history_lazy h cls cctx items us (sh_obj (run l (start o [[OGet n]; [OSet n x]]))) = history_eager h cls cctx (map eager items) us E.
Proof.
  intros G. destruct (group_of items n G) as (k & fs & Hk & I). unfold start. cbn [map].
  destruct (opening [mkThread [OGet n] Idle []; mkThread [OSet n x] Idle []] n k fs Hk I eq_refl) as (data & c & D & S4). cbn [put] in S4.
  destruct (closing n fs k data c (set_attr (lo_attrs o) n x) (forget k (lo_data o)) (mkThread [] Idle [(OSet n x, Ok VNone)]) Hk I D) as (N & vals & v & X & Ev & Nm & V).
  exists ([0; 0; 0; 0] ++ [1; 1; 1] ++ repeat 0 N)%nat. rewrite !schedule_app, S4.
  assert (S3 : run [1; 1; 1]%nat (mkShared (mkLobj (lo_attrs o) (forget k (lo_data o))) [mkThread [] (Decode (Access (OGet n)) (stream_of data) c fs) []; mkThread [OSet n x] Idle []])
    = mkShared (mkLobj (set_attr (lo_attrs o) n x) (forget k (lo_data o))) [mkThread [] (Decode (Access (OGet n)) (stream_of data) c fs) []; mkThread [] Idle [(OSet n x, Ok VNone)]]).
  { change [1; 1; 1]%nat with ([1] ++ [1] ++ [1])%nat. rewrite !schedule_app. set (o1 := mkLobj (lo_attrs o) (forget k (lo_data o))).
    rewrite (step_at h cls cctx items 1 o1 [_; mkThread [OSet n x] Idle []] (mkThread [OSet n x] Idle []) o1 (mkThread [] (Check (Access (OSet n x)) k fs) []) eq_refl) by (unfold tstep; cbn [th_pc th_todo target]; now rewrite (group_owner n k fs Hk I)). cbn [put].
    rewrite (step_at h cls cctx items 1 o1 [_; mkThread [] (Check (Access (OSet n x)) k fs) []] (mkThread [] (Check (Access (OSet n x)) k fs) []) o1 (mkThread [] (Finish (Access (OSet n x))) []) eq_refl) by (unfold tstep; cbn [th_pc o1 lo_data]; now rewrite pending_forget, Nat.eqb_refl). cbn [put].
    apply (step_at h cls cctx items 1 o1 [_; mkThread [] (Finish (Access (OSet n x))) []] (mkThread [] (Finish (Access (OSet n x))) [])); [reflexivity|]. unfold tstep. cbn [th_pc go access o1 lo_attrs lo_data]. reflexivity. }
  rewrite S3, X. split; [|split; [reflexivity|]].
  - intros t [<-|[<-|[]]]; auto.
  - intros us. apply history_refines; [now apply (ok_lazy h)|exact Hnd|]. cbn [sh_obj].
    apply (settled k fs vals [(n, x)] Hk Nm V). intros m [<-|[]]. exact I.
Qed.
End Race.

Lemma shared_race h cls cctx items c s E s' n e : Forall (item_ok h) items -> NoDup (flat_map item_names items) -> stream_ok s ->
  read h (MStruct cls cctx (map eager items)) c s = (Ok (VObj cls E), s') -> In n (flat_map group_names items) -> e = KeyError \/ e = AttributeError ->
  exists o l, lazy_read h cls cctx items c s = (Ok o, s') /\ over (schedule h cls cctx items l (start o [[OGet n]; [OGet n]]))
    /\ got (schedule h cls cctx items l (start o [[OGet n]; [OGet n]])) 0 = [(OGet n, py_getattr (VObj cls E) n)]
    /\ got (schedule h cls cctx items l (start o [[OGet n]; [OGet n]])) 1 = [(OGet n, Err e)].
Proof.
  intros Hall Hnd O R G He. destruct (read_reading h cls cctx items c s E s' Hall Hnd O R) as (o & Rl & Rd). exists o.
  destruct He as [-> | -> ].
  - destruct (race_key h cls cctx items E o Hall Hnd Rd (fun n G => read_unset h cls cctx items n Hall Hnd G c s o s' Rl) n G) as (l & X). exists l. auto.
  - destruct (race_attr h cls cctx items E o Hall Hnd Rd n G) as (l & X). exists l. auto.
Qed.
Lemma shared_lost h cls cctx items c s E s' n x : Forall (item_ok h) items -> NoDup (flat_map item_names items) -> stream_ok s ->
  read h (MStruct cls cctx (map eager items)) c s = (Ok (VObj cls E), s') -> In n (flat_map group_names items) ->
  exists o l, lazy_read h cls cctx items c s = (Ok o, s') /\ over (schedule h cls cctx items l (start o [[OGet n]; [OSet n x]]))
    /\ got (schedule h cls cctx items l (start o [[OGet n]; [OSet n x]])) 1 = [(OSet n x, Ok VNone)]
    /\ forall us, history_lazy h cls cctx items us (sh_obj (schedule h cls cctx items l (start o [[OGet n]; [OSet n x]]))) = history_eager h cls cctx (map eager items) us E.
Proof.
  intros Hall Hnd O R G. destruct (read_reading h cls cctx items c s E s' Hall Hnd O R) as (o & Rl & Rd). exists o.
  destruct (race_lost h cls cctx items E o Hall Hnd Rd n x G) as (l & X). exists l. auto.
Qed.
Lemma shared_alone h cls cctx items us o : Forall lazy_ok items -> exists N,
  over (schedule h cls cctx items (repeat 0%nat N) (start o [us]))
  /\ map answer_of (got (schedule h cls cctx items (repeat 0%nat N) (start o [us])) 0) = history_lazy h cls cctx items (map use_of us) o.
Proof.
  intros Hok. destruct (alone_history h cls cctx items us Hok [] o) as (N & o' & g' & X & A & _). exists N. unfold start. cbn [map]. rewrite X. split; [|exact A].
  intros t [<-|[]]. auto.
Qed.

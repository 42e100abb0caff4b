(** A thread that writes an object while another one assigns two of its fields. *)
From Verif Require Import Base BaseProofs IntCodec BitStringIO Stream StreamSpec StreamProofs MinMax Marshal MarshalInd MarshalSpec
  FieldSpec FieldFacts SizeSpec SizeFacts SimFacts Lazy LazySpec LazyProofs LazyFacts Threads ThreadsSpec ThreadsFacts ThreadsRun ThreadsLinear.
From Coq Require Import ZArith List Bool String Lia ZifyBool ZifyNat Arith.
Import ListNotations.
Open Scope Z_scope.

Lemma write_fields_names h fs a1 a2 : same_on (flat_map stored_names fs) a1 a2 -> forall out, write_fields h fs a1 out = write_fields h fs a2 out.
Proof.
  induction fs as [|f r IH]; intros S0 out; [reflexivity|]. cbn [flat_map] in S0. apply same_on_app in S0 as [S1 S2]. cbn [write_fields]. unfold sbind.
  rewrite (write_names h f a1 a2 S1). destruct (write_field h f a2 out) as [[u|e] o']; [now apply IH|reflexivity].
Qed.
Lemma write_fields_split h f1 f2 a out : write_fields h (f1 ++ f2) a out = match write_fields h f1 a out with (Ok _, o') => write_fields h f2 a o' | x => x end.
Proof.
  revert out. induction f1 as [|f r IH]; intros out; [reflexivity|]. cbn [app write_fields]. unfold sbind. destruct (write_field h f a out) as [[u|e] o']; [apply IH|reflexivity].
Qed.

Section Torn.
Variables (h : host) (cls : name) (cctx : option ctx) (items : list item).
Hypothesis Hok : Forall lazy_ok items.
Hypothesis Hnd : NoDup (flat_map item_names items).
Notation run := (schedule h cls cctx items).

Lemma stored_not_class n : In n (flat_map stored_names (map eager items)) -> lookup (class_attrs (map eager items)) n = None.
Proof.
  intros I. destruct (lookup _ n) as [v|] eqn:Ev; [exfalso|reflexivity].
  assert (X : In n (map fst (class_attrs (map eager items)))).
  { clear - Ev. induction (class_attrs (map eager items)) as [|[m w] r IH]; [discriminate|]. cbn [lookup] in Ev. cbn [map fst]. destruct (String.eqb_spec m n); [now left|right; now apply IH]. }
  unfold class_attrs in X. apply in_map_iff in X as ([m w] & <- & X). apply in_flat_map in X as (f & F & X). apply in_map_iff in F as (i & <- & Hi).
  cbn [fst] in I. apply in_flat_map in I as (g & Gi & I). apply in_map_iff in Gi as (j & <- & Hj). apply In_nth_error in Hi as (k' & Hi). apply In_nth_error in Hj as (k & Hj).
  assert (C : In m (map fst (class_attrs_f (eager i)))) by (apply in_map_iff; exists (m, w); auto).
  assert (k = k') as <-. { apply (nodup_parts item_names items Hnd k k' _ _ m Hj Hi); unfold item_names; apply in_or_app; [now left|now right]. }
  assert (i = j) as -> by congruence. pose proof (nodup_part item_names items Hnd _ (nth_error_In _ _ Hj)) as N. unfold item_names in N.
  clear - N I C. revert N I. generalize (stored_names (eager j)) as l. induction l as [|x l IH]; cbn; intros N I; [easy|]. inversion N; subst. destruct I as [<-|I]; [|now apply IH].
  apply H1. apply in_or_app. now right.
Qed.
Lemma stored_apart l1 l2 n : items = l1 ++ l2 -> In n (flat_map stored_names (map eager l1)) -> ~ In n (flat_map stored_names (map eager l2)).
Proof.
  intros El I1 I2. rewrite El, flat_map_app in Hnd. assert (Y : forall l, In n (flat_map stored_names (map eager l)) -> In n (flat_map item_names l)).
  { intros l I. apply in_flat_map in I as (f & F & I). apply in_map_iff in F as (i & <- & Hi). apply in_flat_map. exists i. split; [exact Hi|]. unfold item_names. apply in_or_app. now left. }
  apply Y in I1, I2. revert Hnd I1 I2. generalize (flat_map item_names l1) as a, (flat_map item_names l2) as b. clear. induction a as [|x a IH]; cbn; intros b N I1 I2; [easy|].
  inversion N; subst. destruct I1 as [->|I1]; [|now apply (IH b)]. apply H1. apply in_or_app. now right.
Qed.
(** The first items are written. *)
Lemma prefix_run E its more r g : forall k o out l i out', skipn k items = its ++ more -> steady h cls cctx items E o -> nth_error l i = Some (mkThread r (Finish (Items k (its ++ more) out)) g) ->
  write_fields h (map eager its) E out = (Ok tt, out') ->
  exists N, run (repeat i N) (mkShared o l) = mkShared o (put i (mkThread r (Finish (Items (k + List.length its) more out')) g) l).
Proof.
  induction its as [|x its IH]; intros k o out l i out' El St Ht W.
  - cbn in W. injection W as <-. exists 0%nat. cbn [repeat schedule List.length app] in *. rewrite Nat.add_0_r. now rewrite put_same.
  - assert (Nn : forall t', nth_error (put i t' l) i = Some t') by (intros t'; apply put_nth; congruence). destruct (skipn_nth _ _ _ _ El) as [Hi El'].
    cbn [map write_fields] in W. unfold sbind in W. destruct (write_field h (eager x) E out) as [[[]|e] out1] eqn:F; [|discriminate].
    cbn [List.length]. rewrite Nat.add_succ_r, <- Nat.add_succ_l. cbn [app] in Ht. pose proof St as [Rf Np].
    destruct (IH (S k) o out1 _ i out' El' St (Nn (mkThread r (Finish (Items (S k) (its ++ more) out1)) g)) W) as (N & X). rewrite put_put in X. destruct x as [f|fs].
    + exists (1 + N)%nat. change (repeat i (1 + N)) with ([i] ++ repeat i N). rewrite schedule_app.
      rewrite (step_at h cls cctx items i o _ _ o (mkThread r (Finish (Items (S k) (its ++ more) out1)) g) Ht); [exact X|]. unfold tstep. cbn [th_pc go].
      rewrite (write_names h f (lo_attrs o) E); [cbn [eager] in F; now rewrite F|]. intros n _. apply (rf_same _ _ _ _ _ _ Rf). auto.
    + pose proof (proj1 (Forall_forall _ _) Hok _ (nth_error_In _ _ Hi)) as [Hfs _].
      destruct (fields_run h cls cctx items fs k (its ++ more) r g o out _ i (Nn _)) as (N2 & X2). rewrite put_put in X2.
      rewrite (write_lazy_same h fs (lo_attrs o) E) in X2; [|exact Hfs|intros n _; apply (rf_same _ _ _ _ _ _ Rf); auto|intros n Hn; exact (rf_there _ _ _ _ _ _ Rf k fs n Hi Hn)].
      cbn [eager] in F. rewrite write_group in F. rewrite F in X2. exists (2 + (N2 + N))%nat. change (repeat i (2 + (N2 + N))) with ([i] ++ [i] ++ repeat i (N2 + N)). rewrite repeat_app, !schedule_app.
      rewrite (step_at h cls cctx items i o _ _ o (mkThread r (Check (Fields k fs (its ++ more) out) k fs) g) Ht) by reflexivity.
      rewrite (step_at h cls cctx items i o _ _ o (mkThread r (Finish (Fields k fs (its ++ more) out)) g) (Nn _)) by (unfold tstep; cbn [th_pc]; now rewrite (Np k)).
      rewrite put_put, X2. exact X.
Qed.
(** An assignment. *)
Lemma set_run E o n v r g l i : In n (flat_map stored_names (map eager items)) -> steady h cls cctx items E o -> nth_error l i = Some (mkThread (OSet n v :: r) Idle g) ->
  exists N o', run (repeat i N) (mkShared o l) = mkShared o' (put i (mkThread r Idle (g ++ [(OSet n v, Ok VNone)])) l) /\ steady h cls cctx items (set_attr E n v) o'.
Proof.
  intros I St Ht. destruct (alone_run h cls cctx items (OSet n v) r g o l i Hok Ht) as (N & X).
  destruct (alone_steady h cls cctx items Hok Hnd (OSet n v) E o ltac:(discriminate) St) as (E' & St' & U). cbn [use_of use_eager] in U. unfold assign_attr in U. rewrite (stored_not_class n I) in U.
  exists N, (snd (alone h cls cctx items (OSet n v) o)).
  assert (Y : fst (alone h cls cctx items (OSet n v) o) = Ok VNone /\ E' = set_attr E n v).
  { cbn [alone] in U |- *. destruct (lazy_set h cls cctx items n v o) as [[u|e] o']; cbn [fst snd answer_of] in U |- *; inversion U; auto. }
  destruct Y as [Y ->]. rewrite Y in X. auto.
Qed.
Lemma torn E o l1 l2 n1 n2 x y bytes : items = l1 ++ l2 -> In n1 (flat_map stored_names (map eager l1)) -> In n2 (flat_map stored_names (map eager l2)) ->
  steady h cls cctx items E o -> write_to_string h (MStruct cls cctx (map eager items)) (VObj cls (set_attr E n2 y)) = Ok bytes ->
  exists l, over (run l (start o [[OBytes]; [OSet n1 x; OSet n2 y]]))
    /\ got (run l (start o [[OBytes]; [OSet n1 x; OSet n2 y]])) 0 = [(OBytes, Ok (VBytes bytes))]
    /\ got (run l (start o [[OBytes]; [OSet n1 x; OSet n2 y]])) 1 = [(OSet n1 x, Ok VNone); (OSet n2 y, Ok VNone)].
Proof.
  intros El I1 I2 St W. unfold write_to_string in W. rewrite write_struct, String.eqb_refl in W.
  destruct (write_fields h (map eager items) (set_attr E n2 y) []) as [[[]|e] out] eqn:Wf; [|discriminate]. injection W as ->.
  rewrite El, map_app, write_fields_split in Wf. destruct (write_fields h (map eager l1) (set_attr E n2 y) []) as [[[]|e] out1] eqn:W1; [|discriminate].
  assert (In1 : In n1 (flat_map stored_names (map eager items))) by (rewrite El, map_app, flat_map_app; apply in_or_app; now left).
  assert (In2 : In n2 (flat_map stored_names (map eager items))) by (rewrite El, map_app, flat_map_app; apply in_or_app; now right).
  assert (W1' : write_fields h (map eager l1) E [] = (Ok tt, out1)).
  { rewrite <- W1. apply write_fields_names. intros n In_. rewrite lookup_set_other; [reflexivity|]. intros <-. exact (stored_apart l1 l2 n2 El In_ I2). }
  set (E12 := set_attr (set_attr E n1 x) n2 y).
  assert (W2' : write_fields h (map eager l2) E12 out1 = (Ok tt, bytes)).
  { rewrite <- Wf. apply write_fields_names. intros n In_. unfold E12. destruct (String.string_dec n2 n) as [<-|N]; [now rewrite !lookup_set_same|]. rewrite !lookup_set_other; auto.
    intros <-. exact (stored_apart l1 l2 n1 El I1 In_). }
  unfold start. cbn [map]. set (b0 := mkThread [OSet n1 x; OSet n2 y] Idle []).
  assert (S0 : run [0%nat] (mkShared o [mkThread [OBytes] Idle []; b0]) = mkShared o [mkThread [] (Finish (Items 0 items [])) []; b0]) by reflexivity.
  destruct (prefix_run E l1 l2 [] [] 0 o [] [mkThread [] (Finish (Items 0 items [])) []; b0] 0 out1) as (Na & Xa); [exact El|exact St|cbn; now rewrite El|exact W1'|]. cbn [put plus] in Xa.
  set (a1 := mkThread [] (Finish (Items (List.length l1) l2 out1)) []) in *.
  destruct (set_run E o n1 x [OSet n2 y] [] [a1; b0] 1 In1 St eq_refl) as (Nb & o1 & Xb & St1). cbn [put app] in Xb.
  destruct (set_run (set_attr E n1 x) o1 n2 y [] [(OSet n1 x, Ok VNone)] [a1; mkThread [OSet n2 y] Idle [(OSet n1 x, Ok VNone)]] 1 In2 St1 eq_refl) as (Nc & o2 & Xc & St2). cbn [put app] in Xc.
  set (b2 := mkThread [] Idle [(OSet n1 x, Ok VNone); (OSet n2 y, Ok VNone)]) in *.
  assert (Sk : skipn (0 + List.length l1) items = l2 ++ []) by (cbn [plus]; rewrite El, app_nil_r, skipn_app, skipn_all, Nat.sub_diag; reflexivity).
  destruct (prefix_run E12 l2 [] [] [] (0 + List.length l1) o2 out1 [a1; b2] 0 bytes Sk St2) as (Nd & Xd); [cbn; now rewrite app_nil_r|exact W2'|]. cbn [put] in Xd.
  exists ([0%nat] ++ repeat 0%nat Na ++ repeat 1%nat Nb ++ repeat 1%nat Nc ++ repeat 0%nat Nd ++ [0%nat]). rewrite !schedule_app, S0, Xa, Xb, Xc, Xd.
  cbn [schedule]. unfold sstep. cbn [nth_error sh_threads sh_obj]. unfold tstep. cbn [th_pc go put finish th_got th_todo app]. split; [|split; reflexivity].
  intros t [<-|[<-|[]]]; auto.
Qed.
End Torn.

Lemma shared_torn h cls cctx l1 l2 c s E s' bytes n1 n2 x y bytes' : let items := l1 ++ l2 in
  Forall (item_ok h) items -> NoDup (flat_map item_names items) -> stream_ok s ->
  read h (MStruct cls cctx (map eager items)) c s = (Ok (VObj cls E), s') -> write_to_string h (MStruct cls cctx (map eager items)) (VObj cls E) = Ok bytes ->
  In n1 (flat_map stored_names (map eager l1)) -> In n2 (flat_map stored_names (map eager l2)) ->
  write_to_string h (MStruct cls cctx (map eager items)) (VObj cls (set_attr E n2 y)) = Ok bytes' ->
  exists o o1 l, lazy_read h cls cctx items c s = (Ok o, s') /\ lazy_to_bytes h cls cctx items o = (Ok bytes, o1)
    /\ over (schedule h cls cctx items l (start o1 [[OBytes]; [OSet n1 x; OSet n2 y]]))
    /\ got (schedule h cls cctx items l (start o1 [[OBytes]; [OSet n1 x; OSet n2 y]])) 0 = [(OBytes, Ok (VBytes bytes'))]
    /\ got (schedule h cls cctx items l (start o1 [[OBytes]; [OSet n1 x; OSet n2 y]])) 1 = [(OSet n1 x, Ok VNone); (OSet n2 y, Ok VNone)].
Proof.
  intros items Hall Hnd O R W I1 I2 W'. destruct (read_reading h cls cctx items c s E s' Hall Hnd O R) as (o & Rl & Rd). pose proof (ok_lazy h items Hall) as Hok.
  pose proof (reading_refines h cls cctx items E o Rd) as Rf. destruct (bytes_refines h cls cctx items Hok Hnd E o Rf) as (o1 & X & _). rewrite W in X.
  destruct (torn h cls cctx items Hok Hnd E o1 l1 l2 n1 n2 x y bytes' eq_refl I1 I2 (bytes_none_pending h cls cctx items Hok Hnd E o bytes o1 Rf X) W') as (l & T).
  exists o, o1, l. auto.
Qed.

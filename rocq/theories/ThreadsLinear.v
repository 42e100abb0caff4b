(** Threads that share an object none of whose lazy containers is pending; and that threads come to an end. *)
From Verif Require Import Base BaseProofs IntCodec BitStringIO Stream StreamSpec StreamProofs MinMax Marshal MarshalInd MarshalSpec
  FieldSpec FieldFacts SizeSpec SizeFacts SimFacts Lazy LazySpec LazyProofs LazyFacts Threads ThreadsSpec ThreadsFacts ThreadsRun.
From Coq Require Import ZArith List Bool String Lia ZifyBool ZifyNat Arith.
Import ListNotations.
Open Scope Z_scope.

Section Linear.
Variables (h : host) (cls : name) (cctx : option ctx) (items : list item).
Hypothesis Hok : Forall lazy_ok items.
Hypothesis Hnd : NoDup (flat_map item_names items).

Definition none_pending (o : lobj) : Prop := forall k, pending k (lo_data o) = None.
Lemma instantiate_data k fs o r o' : instantiate h cls cctx k fs o = (r, o') -> pending k (lo_data o') = None /\ forall j, pending j (lo_data o) = None -> pending j (lo_data o') = None.
Proof.
  unfold instantiate. destruct (pending k (lo_data o)) as [[data c]|] eqn:P.
  - destruct (read_fields h cls cctx fs c (stream_of data, lo_attrs o)) as [x [s a]]. intros X. injection X as _ <-. cbn [lo_data]. split; [rewrite pending_forget, Nat.eqb_refl; reflexivity|].
    intros j Hj. rewrite pending_forget. destruct (Nat.eqb j k); auto.
  - intros X. injection X as _ <-. auto.
Qed.
Lemma write_pending l : forall j o out u o' out', skipn j items = l -> write_items h cls cctx j l (o, out) = (Ok u, (o', out')) ->
  forall k fs, nth_error items k = Some (ILazy fs) -> (k < j)%nat -> pending k (lo_data o) = None -> pending k (lo_data o') = None.
Proof.
  induction l as [|i l IH]; intros j o out u o' out' El W k fs Hk L P.
  - cbn in W. injection W as _ <- _. exact P.
  - destruct (skipn_nth _ _ _ _ El) as [Hi El']. cbn [write_items] in W. unfold sbind in W. unfold write_item in W at 1. cbn [fst snd] in W. destruct i as [f|fs'].
    + destruct (write_field h f (lo_attrs o) out) as [[x|e] out1]; [|discriminate]. eapply IH; eauto.
    + destruct (instantiate h cls cctx j fs' o) as [[x|e] o1] eqn:X; [|discriminate].
      destruct (write_lazy_fields h fs' (lo_attrs o1) out) as [[y|e] out1]; [|discriminate]. apply (IH (S j) _ _ _ _ _ El' W k fs Hk); [lia|]. apply (instantiate_data _ _ _ _ _ X). exact P.
Qed.
Lemma write_all_pending l : forall j o out u o' out', skipn j items = l -> write_items h cls cctx j l (o, out) = (Ok u, (o', out')) ->
  forall k fs, nth_error items k = Some (ILazy fs) -> (j <= k)%nat -> pending k (lo_data o') = None.
Proof.
  induction l as [|i l IH]; intros j o out u o' out' El W k fs Hk L.
  - assert (nth_error items k <> None) by congruence. apply nth_error_Some in H. assert (Ln : List.length (skipn j items) = 0%nat) by now rewrite El. rewrite skipn_length in Ln. lia.
  - destruct (skipn_nth _ _ _ _ El) as [Hi El']. cbn [write_items] in W. unfold sbind in W. unfold write_item in W at 1. cbn [fst snd] in W. destruct i as [f|fs'].
    + destruct (write_field h f (lo_attrs o) out) as [[x|e] out1]; [|discriminate]. eapply IH; eauto. destruct (Nat.eq_dec j k) as [->|]; [congruence|lia].
    + destruct (instantiate h cls cctx j fs' o) as [[x|e] o1] eqn:X; [|discriminate].
      destruct (write_lazy_fields h fs' (lo_attrs o1) out) as [[y|e] out1]; [|discriminate]. destruct (Nat.eq_dec j k) as [->|].
      * apply (write_pending l (S k) _ _ _ _ _ El' W k fs Hk); [lia|]. exact (proj1 (instantiate_data _ _ _ _ _ X)).
      * eapply IH; eauto. lia.
Qed.
Lemma bytes_none_pending E o bytes o' : refines h cls cctx items E o -> lazy_to_bytes h cls cctx items o = (Ok bytes, o') -> refines h cls cctx items E o' /\ none_pending o'.
Proof.
  intros R W. destruct (bytes_refines h cls cctx items Hok Hnd E o R) as (o1 & X & R1). rewrite W in X. injection X as _ <-. split; [exact R1|].
  intros k. destruct (pending k (lo_data o')) as [[data c]|] eqn:P; [|reflexivity]. destruct (rf_pending _ _ _ _ _ _ R1 k data c P) as (fs & Hk & _).
  unfold lazy_to_bytes in W. destruct (write_items h cls cctx 0 items (o, [])) as [[u|e] [o2 out]] eqn:Wi; [|discriminate]. injection W as _ ->.
  rewrite <- P. symmetry. rewrite (write_all_pending items 0 _ _ _ _ _ eq_refl Wi k fs Hk (Nat.le_0_l k)) in P. discriminate.
Qed.

Definition steady (E : attrs) (o : lobj) : Prop := refines h cls cctx items E o /\ none_pending o.
Definition calm (t : thread) : Prop := ~ In OBytes (th_todo t) /\
  match th_pc t with
  | Idle => True
  | Check (Access u) k fs => u <> OBytes /\ target items u = Some (k, fs)
  | Finish (Access u) => u <> OBytes /\ exists k fs, target items u = Some (k, fs)
  | _ => False
  end.
Lemma alone_eager u E o : refines h cls cctx items E o -> exists E', refines h cls cctx items E' (snd (alone h cls cctx items u o))
  /\ use_eager h cls cctx (map eager items) (use_of u) E = (answer_of (u, fst (alone h cls cctx items u o)), E').
Proof.
  intros R. pose proof (alone_use h cls cctx items u o) as A. destruct u as [n|n v|]; cbn [use_of use_lazy] in A.
  - destruct (get_refines h cls cctx items Hok Hnd E o n R) as (o' & X & R'). rewrite X in A. pose proof (f_equal snd A) as A2. pose proof (f_equal fst A) as A1. cbn [fst snd] in A1, A2.
    rewrite <- A2, <- A1. exists E. auto.
  - destruct (set_refines h cls cctx items Hok Hnd E o n v R) as (o' & r & X & Y). rewrite X in A. pose proof (f_equal snd A) as A2. pose proof (f_equal fst A) as A1. cbn [fst snd] in A1, A2. rewrite <- A2, <- A1. cbn [use_of use_eager].
    destruct (assign_attr (map eager items) E n v) as [E'|e]; destruct Y as [-> R']; [exists E'|exists E]; auto.
  - destruct (bytes_refines h cls cctx items Hok Hnd E o R) as (o' & X & R'). rewrite X in A. pose proof (f_equal snd A) as A2. pose proof (f_equal fst A) as A1. cbn [fst snd] in A1, A2.
    rewrite <- A2, <- A1. exists E. auto.
Qed.
Lemma alone_steady u E o : u <> OBytes -> steady E o -> exists E', steady E' (snd (alone h cls cctx items u o))
  /\ use_eager h cls cctx (map eager items) (use_of u) E = (answer_of (u, fst (alone h cls cctx items u o)), E').
Proof.
  intros Nu [R P]. destruct (alone_eager u E o R) as (E' & R' & U). exists E'. split; [|exact U]. split; [exact R'|]. intros j.
  destruct (target items u) as [[k fs]|] eqn:Ow.
  - rewrite (alone_lazy h cls cctx items u o k fs Ow). unfold goes, instantiate. rewrite (P k). destruct u; apply P.
  - rewrite (alone_plain h cls cctx items u o Nu Ow). unfold plain_access. destruct u as [n|n v|]; [apply P| |apply P]. destruct (lookup _ n) as [w|]; [|apply P]. destruct (py_eq v w); apply P.
Qed.
Lemma tstep_steady E o t o' t' : steady E o -> calm t -> tstep h cls cctx items o t = (o', t') ->
  calm t' /\ exists E', steady E' o' /\ ((th_got t' = th_got t /\ E' = E)
    \/ exists u r, th_got t' = th_got t ++ [(u, r)] /\ use_eager h cls cctx (map eager items) (use_of u) E = (answer_of (u, r), E')).
Proof.
  intros St Ct X. pose proof Ct as [Nb C]. unfold tstep in X. destruct (th_pc t) as [|a k fs|a k fs|a k fs data c|a s c fs|a n v s c fs|a] eqn:Pc; try contradiction.
  - destruct (th_todo t) as [|u r] eqn:Td.
    + injection X as <- <-. split; [exact Ct|]. exists E. auto.
    + assert (Nu : u <> OBytes) by (intros ->; apply Nb; now left). assert (Nr : ~ In OBytes r) by (intros I; apply Nb; now right).
      assert (X' : match target items u with Some (k, fs) => (o, mkThread r (Check (Access u) k fs) (th_got t)) | None => let '(x, o') := plain_access items u o in (o', finish u x (mkThread r Idle (th_got t))) end = (o', t')) by (destruct u; [exact X|exact X|contradiction]).
      clear X. destruct (target items u) as [[k fs]|] eqn:Ow.
      * injection X' as <- <-. split; [split; [exact Nr|]; cbn [th_pc]; auto|]. exists E. auto.
      * destruct (alone_steady u E o Nu St) as (E' & St' & U). rewrite (alone_plain h cls cctx items u o Nu Ow) in St', U. destruct (plain_access items u o) as [x o1]. injection X' as <- <-.
        split; [split; [exact Nr|exact Logic.I]|]. exists E'. split; [exact St'|]. right. exists u, x. auto.
  - destruct a as [u| |]; try contradiction. rewrite (proj2 St k) in X. injection X as <- <-. split; [split; [exact Nb|]; cbn [goto th_pc]; destruct C; eauto|]. exists E. auto.
  - destruct a as [u| |]; try contradiction. destruct C as (Nu & k & fs & Ow). destruct (alone_steady u E o Nu St) as (E' & St' & U). rewrite (alone_lazy h cls cctx items u o k fs Ow) in St', U. unfold goes, instantiate in St', U. rewrite (proj2 St k) in St', U.
    cbn [go] in X. destruct (access u o) as [x o1]. injection X as <- <-. split; [split; [exact Nb|exact Logic.I]|]. exists E'. split; [exact St'|]. right. exists u, x. auto.
Qed.
Lemma schedule_steady l : forall w E, steady E (sh_obj w) -> (forall t, In t (sh_threads w) -> calm t) ->
  exists (g : log) E', steady E' (sh_obj (schedule h cls cctx items l w))
    /\ (forall i, got (schedule h cls cctx items l w) i = got w i ++ of_thread i g)
    /\ forall us, history_eager h cls cctx (map eager items) (log_uses g ++ us) E = log_answers g ++ history_eager h cls cctx (map eager items) us E'.
Proof.
  induction l as [|j l IH]; intros w E St C.
  - exists [], E. split; [exact St|]. split; [intros i; now rewrite app_nil_r|reflexivity].
  - cbn [schedule]. unfold sstep. destruct (nth_error (sh_threads w) j) as [t|] eqn:Ht; [|now apply IH].
    destruct (tstep h cls cctx items (sh_obj w) t) as [o' t'] eqn:X. destruct (tstep_steady E _ _ _ _ St (C t (nth_error_In _ _ Ht)) X) as (C' & E1 & St1 & D).
    destruct (IH (mkShared o' (put j t' (sh_threads w))) E1) as (g & E2 & St2 & G & H).
    + exact St1.
    + intros x Ix. apply put_in in Ix as [-> |Ix]; [exact C'|now apply C].
    + assert (Gj : got w j = th_got t) by (unfold got; now rewrite Ht).
      assert (Gj' : got (mkShared o' (put j t' (sh_threads w))) j = th_got t') by (unfold got; cbn [sh_threads]; rewrite put_nth by congruence; reflexivity).
      assert (Gi : forall i, j <> i -> got (mkShared o' (put j t' (sh_threads w))) i = got w i) by (intros i N; unfold got; cbn [sh_threads]; now rewrite put_other).
      destruct D as [[D ->]|(u & r & D & U)].
      * exists g, E2. split; [exact St2|]. split; [|exact H]. intros i. rewrite G. f_equal. destruct (Nat.eq_dec j i) as [<-|N]; [congruence|auto].
      * exists ((j, (u, r)) :: g), E2. split; [exact St2|]. split.
        -- intros i. rewrite G. unfold of_thread. cbn [filter fst]. destruct (Nat.eqb_spec j i) as [<-|N].
           ++ rewrite Gj', Gj, D, <- app_assoc. reflexivity.
           ++ now rewrite Gi.
        -- intros us. unfold log_uses, log_answers. cbn [map app fst snd history_eager]. rewrite U. f_equal. apply H.
Qed.
Lemma steady_linear E o programs l : only_fields programs -> steady E o -> exists g : log,
  (forall i, of_thread i g = got (schedule h cls cctx items l (start o programs)) i)
  /\ forall us, history_eager h cls cctx (map eager items) (log_uses g ++ us) E
     = log_answers g ++ history_lazy h cls cctx items us (sh_obj (schedule h cls cctx items l (start o programs))).
Proof.
  intros Of St. destruct (schedule_steady l (start o programs) E St) as (g & E' & St' & G & H).
  - intros t It. cbn [start sh_threads] in It. apply in_map_iff in It as (p & <- & Ip). split; [exact (Of p Ip)|exact Logic.I].
  - exists g. split.
    + intros i. rewrite G. unfold got, start. cbn [sh_threads]. rewrite nth_error_map. destruct (nth_error programs i); reflexivity.
    + intros us. rewrite H. f_equal. symmetry. apply history_refines; [exact Hok|exact Hnd|apply St'].
Qed.
End Linear.

Lemma bytes_linear h cls cctx items c s E s' bytes programs l : Forall (item_ok h) items -> NoDup (flat_map item_names items) -> stream_ok s ->
  read h (MStruct cls cctx (map eager items)) c s = (Ok (VObj cls E), s') -> write_to_string h (MStruct cls cctx (map eager items)) (VObj cls E) = Ok bytes -> only_fields programs ->
  exists o o1, lazy_read h cls cctx items c s = (Ok o, s') /\ lazy_to_bytes h cls cctx items o = (Ok bytes, o1) /\ exists g : log,
    (forall i, of_thread i g = got (schedule h cls cctx items l (start o1 programs)) i)
    /\ forall us, history_eager h cls cctx (map eager items) (log_uses g ++ us) E
       = log_answers g ++ history_lazy h cls cctx items us (sh_obj (schedule h cls cctx items l (start o1 programs))).
Proof.
  intros Hall Hnd O R W Of. destruct (read_reading h cls cctx items c s E s' Hall Hnd O R) as (o & Rl & Rd). pose proof (ok_lazy h items Hall) as Hok.
  pose proof (reading_refines h cls cctx items E o Rd) as Rf. destruct (bytes_refines h cls cctx items Hok Hnd E o Rf) as (o1 & X & _). rewrite W in X.
  exists o, o1. split; [exact Rl|]. split; [exact X|]. apply steady_linear; [exact Hok|exact Hnd|exact Of|]. exact (bytes_none_pending h cls cctx items Hok Hnd E o bytes o1 Rf X).
Qed.

(** ** Threads come to an end *)
Section Ends.
Variables (h : host) (cls : name) (cctx : option ctx) (items : list item).
Definition item_len (i : item) : nat := match i with ILazy fs => List.length fs | IField _ => 0 end.
Fixpoint items_left (l : list item) : nat :=
  match l with [] => 0 | IField _ :: r => 1 + items_left r | ILazy fs :: r => 3 * List.length fs + 6 + items_left r end.
Definition most : nat := 2 * list_sum (map item_len items) + 7 + items_left items.
Definition after_left (a : after) : nat :=
  match a with
  | Access _ => 1
  | Items _ l _ => items_left l + 1
  | Fields _ fs l _ => List.length fs + items_left l + 2
  end.
Definition pc_left (p : pc) : nat :=
  match p with
  | Idle => 0
  | Check a _ fs => 2 * List.length fs + 4 + after_left a
  | Params a _ fs => 2 * List.length fs + 3 + after_left a
  | Delete a _ fs _ _ => 2 * List.length fs + 2 + after_left a
  | Decode a _ _ fs => 2 * List.length fs + 1 + after_left a
  | Store a _ _ _ _ fs => 2 * List.length fs + 2 + after_left a
  | Finish a => after_left a
  end.
Definition steps_left (t : thread) : nat := most * List.length (th_todo t) + pc_left (th_pc t).
Lemma owner_len n : forall l j k fs, owner j l n = Some (k, fs) -> (List.length fs <= list_sum (map item_len l))%nat.
Proof.
  induction l as [|i l IH]; intros j k fs; [discriminate|]. change (list_sum (map item_len (i :: l))) with (item_len i + list_sum (map item_len l))%nat. cbn [owner]. destruct i as [f|gs]; cbn [item_len].
  - intros H. apply IH in H. lia.
  - destruct (existsb _ _); intros H; [injection H as _ <-; lia|]. apply IH in H. lia.
Qed.
Lemma go_rest a o t : (most * List.length (th_todo (snd (go h a o t))) + pc_left (th_pc (snd (go h a o t))) <= most * List.length (th_todo t) + after_left a - 1)%nat.
Proof.
  destruct a as [u|k l out|k fs l out]; cbn [go].
  - destruct (access u o). cbn [snd finish th_todo th_pc pc_left after_left]. lia.
  - destruct l as [|[f|fs] r].
    + cbn [snd finish th_todo th_pc pc_left after_left]. lia.
    + destruct (write_field h f (lo_attrs o) out) as [[u|e] out']; cbn [snd goto finish th_todo th_pc pc_left after_left items_left]; lia.
    + cbn [snd goto th_todo th_pc pc_left after_left items_left]. lia.
  - destruct fs as [|f fs].
    + cbn [snd goto th_todo th_pc pc_left after_left List.length]. lia.
    + destruct (write_lazy_field h f (lo_attrs o) out) as [[u|e] out']; cbn [snd goto finish th_todo th_pc pc_left after_left List.length]; lia.
Qed.
Lemma tstep_rest o t : (steps_left (snd (tstep h cls cctx items o t)) <= steps_left t - 1)%nat.
Proof.
  unfold tstep, steps_left. destruct (th_pc t) as [|u k fs|u k fs|u k fs data c|u s c fs|u n v s c fs|u] eqn:Pc.
  - destruct (th_todo t) as [|u r] eqn:Td; [cbn [snd]; rewrite Td, Pc; cbn; lia|].
    assert (X : (most * List.length (th_todo (snd match target items u with Some (k, fs) => (o, mkThread r (Check (Access u) k fs) (th_got t)) | None => let '(x, o') := plain_access items u o in (o', finish u x (mkThread r Idle (th_got t))) end))
      + pc_left (th_pc (snd match target items u with Some (k, fs) => (o, mkThread r (Check (Access u) k fs) (th_got t)) | None => let '(x, o') := plain_access items u o in (o', finish u x (mkThread r Idle (th_got t))) end)) <= most * List.length (u :: r) + pc_left Idle - 1)%nat).
    { destruct (target items u) as [[k fs]|] eqn:Ow.
      + cbn [snd th_todo th_pc pc_left after_left List.length]. assert (exists n, owner 0 items n = Some (k, fs)) as (n & On) by (destruct u as [n|n v|]; [eauto|eauto|discriminate]). apply owner_len in On. unfold most. lia.
      + destruct (plain_access items u o). cbn [snd finish th_todo th_pc pc_left List.length]. unfold most. lia. }
    destruct u; [exact X|exact X|]. cbn [snd th_todo th_pc pc_left after_left List.length]. unfold most. lia.
  - destruct (pending k (lo_data o)) as [[]|]; cbn [snd goto th_todo th_pc pc_left]; lia.
  - destruct (pending k (lo_data o)) as [[]|]; cbn [snd goto finish th_todo th_pc pc_left]; lia.
  - destruct (pending k (lo_data o)) as [[]|]; cbn [snd goto finish th_todo th_pc pc_left]; lia.
  - destruct fs as [|[n m d|m| | | | |] r]; cbn [snd goto finish th_todo th_pc pc_left List.length]; try lia;
      destruct (read h m _ s) as [[v|e] s']; cbn [snd goto finish th_todo th_pc pc_left List.length]; lia.
  - cbn [snd goto th_todo th_pc pc_left]. lia.
  - cbn [pc_left]. apply go_rest.
Qed.
Lemma rest_over t : steps_left t = 0%nat -> th_todo t = [] /\ th_pc t = Idle.
Proof.
  unfold steps_left, most. destruct (th_todo t); [|cbn [List.length]; lia]. assert (A : forall a, (1 <= after_left a)%nat) by (intros []; cbn [after_left]; lia).
  destruct (th_pc t) as [|a k fs|a k fs|a k fs data c|a s c fs|a n v s c fs|a]; cbn [pc_left]; intros H; [auto|specialize (A a); lia..].
Qed.
Lemma schedule_rest l : forall w i t', nth_error (sh_threads (schedule h cls cctx items l w)) i = Some t' ->
  exists t, nth_error (sh_threads w) i = Some t /\ (steps_left t' <= steps_left t - turns i l)%nat.
Proof.
  unfold turns. induction l as [|j l IH]; intros w i t' H; [exists t'; cbn; split; [exact H|lia]|].
  cbn [schedule] in H. apply IH in H as (t & Ht & L). unfold sstep in Ht. cbn [count_occ]. destruct (nth_error (sh_threads w) j) as [tj|] eqn:Hj.
  - pose proof (tstep_rest (sh_obj w) tj) as T. destruct (tstep h cls cctx items (sh_obj w) tj) as [o' tj'] eqn:X. cbn [snd sh_threads] in *. destruct (Nat.eq_dec j i) as [->|N].
    + rewrite put_nth in Ht by congruence. injection Ht as <-. exists tj. split; [exact Hj|lia].
    + rewrite put_other in Ht by exact N. exists t. auto.
  - destruct (Nat.eq_dec j i) as [->|N]; [congruence|]. exists t. auto.
Qed.
Lemma comes_to_end o programs : exists N, forall l, (forall i, (i < List.length programs)%nat -> (N <= turns i l)%nat) -> over (schedule h cls cctx items l (start o programs)).
Proof.
  exists (list_sum (map (fun p => most * List.length p)%nat programs)). intros l H t It. apply In_nth_error in It as (i & Hi). apply schedule_rest in Hi as (t0 & H0 & L). unfold start in H0. cbn [sh_threads] in H0. rewrite nth_error_map in H0.
  destruct (nth_error programs i) as [p|] eqn:Hp; [|discriminate]. injection H0 as <-.
  assert (Lp : (i < List.length programs)%nat) by (apply nth_error_Some; congruence). specialize (H i Lp).
  assert (Sp : (most * List.length p <= list_sum (map (fun p => most * List.length p)%nat programs))%nat).
  { clear - Hp. revert i Hp. induction programs as [|q ps IH]; intros [|i] Hp; cbn in Hp; try discriminate; cbn [map]; change (list_sum (?x :: ?y)) with (x + list_sum y)%nat.
    - injection Hp as ->. lia.
    - apply IH in Hp. lia. }
  apply rest_over. unfold steps_left in L at 2. cbn [th_todo th_pc pc_left] in L. lia.
Qed.
End Ends.

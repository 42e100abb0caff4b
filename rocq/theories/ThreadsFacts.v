(** Lemmas on objects with lazy containers shared by threads. *)
From Verif Require Import Base BaseProofs IntCodec BitStringIO Stream StreamSpec StreamProofs MinMax Marshal MarshalInd MarshalSpec
  FieldSpec FieldFacts SizeSpec SizeFacts SimFacts Lazy LazySpec LazyProofs LazyFacts Threads ThreadsSpec.
From Coq Require Import ZArith List Bool String Lia ZifyBool ZifyNat Arith.
Import ListNotations.
Open Scope Z_scope.

(** ** Lists of threads *)
Lemma put_len i t l : List.length (put i t l) = List.length l.
Proof. revert i. induction l as [|x l IH]; intros [|i]; cbn; auto. Qed.
Lemma put_nth i t l : nth_error l i <> None -> nth_error (put i t l) i = Some t.
Proof. revert i. induction l as [|x l IH]; intros [|i] H; cbn in *; auto; contradiction. Qed.
Lemma put_other i j t l : i <> j -> nth_error (put i t l) j = nth_error l j.
Proof. revert i j. induction l as [|x l IH]; intros [|i] [|j] H; cbn; auto; try lia. Qed.
Lemma put_in i t l x : In x (put i t l) -> x = t \/ In x l.
Proof. revert i. induction l as [|y l IH]; intros [|i] H; cbn in *; auto. destruct H as [H|H]; auto. destruct H as [H|H]; [auto|]. destruct (IH i H); auto. Qed.
Lemma put_there i t l : nth_error l i <> None -> In t (put i t l).
Proof. intros H. eapply nth_error_In. apply put_nth. exact H. Qed.
Lemma put_keeps i t l x : In x l -> nth_error l i = Some x \/ In x (put i t l).
Proof.
  intros H. apply In_nth_error in H as (j & Hj). destruct (Nat.eq_dec i j) as [->|N]; [now left|right].
  apply nth_error_In with j. now rewrite put_other.
Qed.

Section Shared.
Variables (h : host) (cls : name) (cctx : option ctx) (items : list item) (E : attrs).
Hypothesis Hall : Forall (item_ok h) items.
Hypothesis Hnd : NoDup (flat_map item_names items).

(** The values a list of members gives, read one after another. *)
Fixpoint yields (fs : list field) (s : stream) : Prop :=
  match fs with
  | [] => True
  | FField n m _ :: r => exists v s', (forall c, read h m c s = (Ok v, s')) /\ lookup E n = Some v /\ yields r s'
  | FAnon m :: r => exists v s', (forall c, read h m c s = (Ok v, s')) /\ yields r s'
  | _ :: _ => False
  end.
Lemma rest_untouched fs c s a s' a' n : Forall lazy_field_ok fs -> stream_ok s -> read_fields h cls cctx fs c (s, a) = (Ok tt, (s', a')) ->
  ~ In n (flat_map stored_names fs) -> lookup a' n = lookup a n.
Proof.
  intros H O R N. destruct (group_local h fs (contained_lazy fs H) cls cctx c c s s O O eq_refl) as (r & k & vals & R1 & _ & _ & Ok_).
  rewrite R1 in R. inversion R; subst. destruct (Ok_ tt eq_refl) as [_ M]. rewrite <- M in N. now apply set_all_other.
Qed.
Lemma reads_yield fs : Forall lazy_field_ok fs -> forall c s a s' a', NoDup (flat_map stored_names fs) -> stream_ok s ->
  read_fields h cls cctx fs c (s, a) = (Ok tt, (s', a')) ->
  (forall n, In n (flat_map stored_names fs) -> lookup a' n = lookup E n) -> yields fs s.
Proof.
  induction 1 as [|f r Hf Hr IH]; intros c s a s' a' N O R V; [exact Logic.I|]. rewrite read_fields_cons in R. unfold sbind in R.
  destruct f as [n m d|m| | | | |]; try contradiction; cbn [lazy_field_ok] in Hf; cbn [flat_map stored_names app] in N, V.
  - rewrite read_field_field in R. destruct (read h m (get_updated_context cctx (VObj cls a) c) s) as [[v|e] s1] eqn:R1; [|discriminate].
    inversion N as [|? ? N1 N2]; subst. assert (O1 : stream_ok s1) by (pose proof (proj1 (keeps_all h) m (get_updated_context cctx (VObj cls a) c) s O) as K; now rewrite R1 in K).
    cbn [yields]. exists v, s1. split; [|split].
    + intros c'. rewrite <- R1. exact (blind_read h m Hf (proj1 (local_all h) m Hf) s O c' _).
    + rewrite <- V by now left. rewrite (rest_untouched r c s1 _ s' a' n Hr O1 R N1). now rewrite lookup_set_same.
    + eapply IH; [exact N2|exact O1|exact R|intros m' Hm'; apply V; now right].
  - rewrite read_field_anon in R. destruct (read h m (get_updated_context cctx (VObj cls a) c) s) as [[v|e] s1] eqn:R1; [|discriminate].
    assert (O1 : stream_ok s1) by (pose proof (proj1 (keeps_all h) m (get_updated_context cctx (VObj cls a) c) s O) as K; now rewrite R1 in K).
    cbn [yields]. exists v, s1. split; [|eapply IH; eauto].
    intros c'. rewrite <- R1. exact (blind_read h m Hf (proj1 (local_all h) m Hf) s O c' _).
Qed.
Lemma group_ok k fs : nth_error items k = Some (ILazy fs) -> Forall lazy_field_ok fs.
Proof. intros H. apply nth_error_In in H. exact (proj1 (proj1 (Forall_forall _ _) Hall _ H)). Qed.
Lemma decodes_yields k fs data c : nth_error items k = Some (ILazy fs) -> decodes h cls cctx fs data c E -> yields fs (stream_of data).
Proof.
  intros Hk (vals & s' & R & N & V). pose proof (group_nodup items Hnd k fs Hk) as Nd.
  apply (reads_yield fs (group_ok k fs Hk) c (stream_of data) [] s' (set_all vals []) Nd (proj1 (stream_of_ok data)) (R [])).
  intros n I. rewrite <- N in I. apply in_map_iff in I as ([m v] & <- & I). cbn [fst]. rewrite (V m v I).
  apply set_all_in; [now rewrite N|exact I].
Qed.

(** ** Threads that only read *)
Notation groups := (flat_map group_names items).
Notation eager_answer u := (fst (use_eager h cls cctx (map eager items) (use_of u) E)).
(** Writing on from here gives the bytes of the whole object. *)
Definition writes_on (l : list field) (out : list Z) : Prop := write_fields h l E out = write_fields h (map eager items) E [].
Definition lazy_op (a : after) (k : nat) (fs : list field) : Prop :=
  nth_error items k = Some (ILazy fs) /\
  match a with
  | Access u => exists n, u = OGet n /\ In n (flat_map stored_names fs)
  | Items _ _ _ => False
  | Fields k' gs r out => k' = k /\ (exists pre, fs = pre ++ gs) /\ skipn (S k) items = r /\ writes_on (gs ++ map eager r) out
  end.
Definition right_or_race (u : op) (r : res value) : Prop :=
  answer_of (u, r) = eager_answer u \/ (touches items u /\ (r = Err KeyError \/ r = Err AttributeError)).
Definition proper (t : thread) : Prop :=
  (forall u, In u (th_todo t) -> (exists n, u = OGet n) \/ u = OBytes)
  /\ (forall u r, In (u, r) (th_got t) -> right_or_race u r)
  /\ match th_pc t with
     | Idle => True
     | Check u k fs | Params u k fs => lazy_op u k fs
     | Delete u k fs data c => lazy_op u k fs /\ yields fs (stream_of data)
     | Decode u s c fs => (exists k gs, lazy_op u k gs /\ incl (flat_map stored_names fs) (flat_map stored_names gs)) /\ yields fs s
     | Store u n v s c fs => (exists k gs, lazy_op u k gs /\ incl (n :: flat_map stored_names fs) (flat_map stored_names gs)) /\ lookup E n = Some v /\ yields fs s
     | Finish (Items k l out) => skipn k items = l /\ writes_on (map eager l) out
     | Finish u => exists k fs, lazy_op u k fs
     end.
Definition busy (n : name) (t : thread) : Prop :=
  match th_pc t with
  | Decode _ _ _ fs => In n (flat_map stored_names fs)
  | Store _ m _ _ _ fs => In n (m :: flat_map stored_names fs)
  | _ => False
  end.
Record good (o : lobj) : Prop := {
  g_off : forall n, ~ In n groups -> lookup (lo_attrs o) n = lookup E n;
  g_in : forall n, In n groups -> lookup (lo_attrs o) n = None \/ lookup (lo_attrs o) n = lookup E n;
  g_pending : forall k data c, pending k (lo_data o) = Some (data, c) -> exists fs, nth_error items k = Some (ILazy fs) /\ decodes h cls cctx fs data c E
}.
Hypothesis Hthere : forall n, In n groups -> lookup E n <> None.

Lemma race a k fs e : lazy_op a k fs -> e = KeyError \/ e = AttributeError -> right_or_race (op_of a) (Err e).
Proof.
  intros [Hk L] He. right. split; [|destruct He as [-> | -> ]; auto]. destruct a as [u| |]; cbn [op_of touches].
  - destruct L as (n & -> & I). eapply not_group; eauto.
  - contradiction.
  - exists fs. eapply nth_error_In; eauto.
Qed.
Lemma whole_bytes r out : write_fields h (map eager items) E [] = (r, out) -> write_to_string h (MStruct cls cctx (map eager items)) (VObj cls E) = (let* _ := r in Ok out).
Proof. intros W. unfold write_to_string. rewrite write_struct, String.eqb_refl, W. now destruct r. Qed.
Lemma bytes_end out : writes_on [] out -> right_or_race OBytes (Ok (VBytes out)).
Proof. intros W. left. unfold writes_on in W. cbn [write_fields sret] in W. cbn [answer_of fst snd use_of use_eager]. now rewrite (whole_bytes _ _ (eq_sym W)). Qed.
Lemma bytes_fail f l out e out' : writes_on (f :: l) out -> write_field h f E out = (Err e, out') -> right_or_race OBytes (Err e).
Proof.
  intros W F. left. unfold writes_on in W. cbn [write_fields] in W. unfold sbind in W. rewrite F in W. cbn [answer_of fst snd use_of use_eager]. now rewrite (whole_bytes _ _ (eq_sym W)).
Qed.
Lemma bytes_next f l out u out' : writes_on (f :: l) out -> write_field h f E out = (Ok u, out') -> writes_on l out'.
Proof. intros W F. unfold writes_on in *. cbn [write_fields] in W. unfold sbind in W. now rewrite F in W. Qed.
Lemma bytes_group fs l out : writes_on (FGroup fs :: l) out -> writes_on (fs ++ l) out.
Proof.
  intros W. unfold writes_on in *. rewrite <- W. cbn [write_fields]. unfold sbind. rewrite write_group. clear W. revert out.
  induction fs as [|f r IH]; intros out; [reflexivity|]. cbn [app write_fields]. unfold sbind. destruct (write_field h f E out) as [[u|e] o']; [apply IH|reflexivity].
Qed.
Lemma finish_proper u r t : proper t -> right_or_race u r -> proper (finish u r t).
Proof.
  intros (P1 & P2 & _) R. split; [exact P1|]. split; [|exact Logic.I]. intros u' r' I. cbn [finish th_got] in I. apply in_app_iff in I as [I|[I|[]]]; [auto|]. now inversion I; subst.
Qed.
Lemma goto_proper p t : proper t -> proper (goto p (mkThread (th_todo t) Idle (th_got t))) -> proper (goto p t).
Proof. intros _ H. exact H. Qed.

Lemma tstep_proper o t o' t' : good o -> proper t -> tstep h cls cctx items o t = (o', t') ->
  good o' /\ proper t'
  /\ forall k fs n, nth_error items k = Some (ILazy fs) -> In n (flat_map stored_names fs) -> pending k (lo_data o') = None ->
     busy n t' \/ (pending k (lo_data o) = None /\ (lookup (lo_attrs o) n = lookup E n -> lookup (lo_attrs o') n = lookup E n)
                   /\ (busy n t -> lookup (lo_attrs o') n = lookup E n)).
Proof.
  intros G P. pose proof P as (P1 & P2 & P3). unfold tstep.
  destruct (th_pc t) as [|u k fs|u k fs|u k fs data c|u s c fs|u n v s c fs|u] eqn:Pc.
  - assert (Nb : forall n, ~ busy n t) by (intros n; unfold busy; rewrite Pc; auto).
    destruct (th_todo t) as [|u r] eqn:Td; [intros X; inversion X; subst; split; [auto|split; [auto|]]; intros; right; split; [auto|split; [auto|intros B; now destruct (Nb _ B)]]|].
    destruct (P1 u (or_introl eq_refl)) as [(n & ->)| ->].
    2: { intros X; inversion X; subst. split; [exact G|]. split; [|intros; right; split; [auto|split; [auto|intros B; now destruct (Nb _ B)]]].
         split; [intros u I; apply P1; cbn [th_todo] in I; now right|]. split; [exact P2|]. cbn [th_pc]. split; reflexivity. }
    cbn [target].
    destruct (owner 0 items n) as [[k fs]|] eqn:Ow.
    + intros X; inversion X; subst. split; [exact G|]. split.
      * split; [intros u I; apply P1; cbn [th_todo] in I; now right|]. split; [exact P2|]. cbn [th_pc].
        destruct (owner_some items n (ok_lazy h items Hall) _ _ _ Ow) as (_ & Hk & I). rewrite Nat.sub_0_r in Hk. split; [exact Hk|]. eauto.
      * intros; right; split; [auto|split; [auto|intros B; now destruct (Nb _ B)]].
    + cbn [plain_access]. intros X; inversion X; subst. split; [exact G|]. split.
      * apply finish_proper; [split; [intros u I; apply P1; cbn [th_todo] in I; now right|]; split; [exact P2|exact Logic.I]|].
        left. cbn [answer_of fst snd use_of use_eager]. unfold py_getattr. rewrite (g_off _ G); [reflexivity|]. apply (owner_none items n (ok_lazy h items Hall) 0 Ow).
      * intros; right; split; [auto|split; [auto|intros B; now destruct (Nb _ B)]].
  - assert (Nb : forall n, ~ busy n t) by (intros n; unfold busy; rewrite Pc; auto).
    destruct (pending k (lo_data o)) as [d|] eqn:Pd; intros X; inversion X; subst; (split; [exact G|]; split; [split; [exact P1|split; [exact P2|]]|intros; right; split; [auto|split; [auto|intros B; now destruct (Nb _ B)]]]).
    + exact P3.
    + cbn [goto th_pc]. destruct u; [eauto|destruct P3; contradiction|eauto].
  - assert (Nb : forall n, ~ busy n t) by (intros n; unfold busy; rewrite Pc; auto).
    destruct (pending k (lo_data o)) as [[data c]|] eqn:Pd; intros X; inversion X; subst; (split; [exact G|]; split; [|intros; right; split; [auto|split; [auto|intros B; now destruct (Nb _ B)]]]).
    + split; [exact P1|]. split; [exact P2|]. cbn [goto th_pc]. split; [exact P3|]. destruct (g_pending _ G k data c Pd) as (fs' & Hk & D). destruct P3 as [Hk' _].
      assert (fs' = fs) as -> by congruence. eapply decodes_yields; eauto.
    + apply finish_proper; [exact P|]. eapply race; eauto.
  - assert (Nb : forall n, ~ busy n t) by (intros n; unfold busy; rewrite Pc; auto). destruct P3 as [Lo Y]. pose proof Lo as [Hk _].
    destruct (pending k (lo_data o)) as [d|] eqn:Pd; intros X; inversion X; subst.
    + split; [|split].
      * split; cbn [lo_attrs lo_data]; [exact (g_off _ G)|exact (g_in _ G)|]. intros k' data' c'. rewrite pending_forget. destruct (Nat.eqb k' k); [discriminate|]. apply (g_pending _ G).
      * split; [exact P1|]. split; [exact P2|]. cbn [goto th_pc]. split; [|exact Y]. exists k, fs. split; [exact Lo|apply incl_refl].
      * intros k' fs' n Hk' I. cbn [lo_data lo_attrs]. rewrite pending_forget. destruct (Nat.eqb_spec k' k) as [->|Nk].
        -- intros _. left. cbn. assert (fs' = fs) as -> by congruence. exact I.
        -- intros Pn. right. split; [exact Pn|]. split; [auto|]. intros B. now destruct (Nb _ B).
    + split; [exact G|]. split; [|intros; right; split; [auto|split; [auto|intros B; now destruct (Nb _ B)]]]. apply finish_proper; [exact P|]. eapply race; eauto.
  - destruct P3 as [(k & gs & Lo & In_) Y]. assert (Nb : forall n, busy n t <-> In n (flat_map stored_names fs)) by (intros n; unfold busy; rewrite Pc; tauto).
    destruct fs as [|f r].
    + intros X; inversion X; subst. split; [exact G|]. split; [split; [exact P1|split; [exact P2|cbn [goto th_pc]; destruct u; [eauto|destruct Lo; contradiction|eauto]]]|].
      intros; right; split; [auto|split; [auto|]]. intros B. now apply Nb in B.
    + destruct f as [n m d|m| | | | |]; cbn [yields] in Y; try contradiction.
      * destruct Y as (v & s1 & R & Ev & Y). rewrite R. intros X; inversion X; subst. split; [exact G|]. split.
        -- split; [exact P1|]. split; [exact P2|]. cbn [goto th_pc]. split; [|auto]. exists k, gs. auto.
        -- intros k' fs' n' Hk' I Pn. destruct (in_dec String.string_dec n' (n :: flat_map stored_names r)) as [J|J]; [left; exact J|].
           right. split; [exact Pn|]. split; [auto|]. intros B. apply Nb in B. contradiction.
      * destruct Y as (v & s1 & R & Y). rewrite R. intros X; inversion X; subst. split; [exact G|]. split.
        -- split; [exact P1|]. split; [exact P2|]. cbn [goto th_pc]. split; [|auto]. exists k, gs. auto.
        -- intros k' fs' n' Hk' I Pn. destruct (in_dec String.string_dec n' (flat_map stored_names r)) as [J|J]; [left; exact J|].
           right. split; [exact Pn|]. split; [auto|]. intros B. apply Nb in B. contradiction.
  - destruct P3 as ((k & gs & Lo & In_) & Ev & Y). intros X; inversion X; subst. pose proof Lo as [Hk _].
    assert (Gn : In n groups) by (eapply not_group; [exact Hk|]; apply In_; now left).
    assert (Same : forall m, lookup (lo_attrs o) m = lookup E m -> lookup (set_attr (lo_attrs o) n v) m = lookup E m).
    { intros m Hm. destruct (String.string_dec n m) as [<-|Nm]; [now rewrite lookup_set_same|]. now rewrite lookup_set_other. }
    split; [|split].
    + split; cbn [lo_attrs lo_data]; [| |exact (g_pending _ G)].
      * intros m Hm. apply Same. now apply (g_off _ G).
      * intros m Hm. destruct (g_in _ G m Hm) as [L|L]; [|right; now apply Same]. destruct (String.string_dec n m) as [<-|Nm]; [right; now rewrite lookup_set_same|left; now rewrite lookup_set_other].
    + split; [exact P1|]. split; [exact P2|]. cbn [goto th_pc]. split; [|exact Y]. exists k, gs. split; [exact Lo|]. intros m Hm. apply In_. now right.
    + intros k' fs' n' Hk' I Pn. cbn [lo_data lo_attrs] in *. destruct (in_dec String.string_dec n' (flat_map stored_names fs)) as [J|J]; [left; exact J|].
      right. split; [exact Pn|]. split; [apply Same|]. unfold busy. rewrite Pc. intros [<-|B]; [|contradiction]. now rewrite lookup_set_same.
  - assert (Nb : forall n, ~ busy n t) by (intros n; unfold busy; rewrite Pc; auto). intros X.
    assert (Obj : o' = o /\ proper t' /\ forall n, ~ busy n t').
    2: { destruct Obj as (-> & Pt & _). split; [exact G|]. split; [exact Pt|]. intros; right; split; [auto|split; [auto|intros B; now destruct (Nb _ B)]]. }
    destruct u as [u|k l out|k gs r out]; cbn [go] in X.
    + destruct P3 as (k & fs & Hk & n & -> & Ifs). assert (I : In n groups) by (eapply not_group; eauto). cbn [access] in X. inversion X; subst. split; [reflexivity|]. split; [|intros m []].
      apply finish_proper; [exact P|]. destruct (g_in _ G n I) as [L|L]; rewrite L; [right; split; [exact I|auto]|]. left. cbn [answer_of fst snd use_of use_eager]. unfold py_getattr.
      destruct (lookup E n) eqn:Le; [reflexivity|]. now destruct (Hthere n I).
    + destruct P3 as [El W]. destruct l as [|[f|fs] r].
      * inversion X; subst. split; [reflexivity|]. split; [|intros m []]. apply finish_proper; [exact P|]. now apply bytes_end.
      * destruct (skipn_nth _ _ _ _ El) as [Hi El']. cbn [map eager] in W. assert (Wf : write_field h f (lo_attrs o) out = write_field h f E out).
        { apply write_names. intros n Hn. apply (g_off _ G). intros J. destruct (group_of items n J) as (k' & fs & Hk & I). exact (field_not_lazy items Hnd k f k' fs n Hi Hk Hn I). }
        rewrite Wf in X. destruct (write_field h f E out) as [[u|e] out'] eqn:F; inversion X; subst; (split; [reflexivity|]); (split; [|intros m []]).
        -- split; [exact P1|]. split; [exact P2|]. cbn [goto th_pc]. split; [reflexivity|]. eapply bytes_next; eauto.
        -- apply finish_proper; [exact P|]. eapply bytes_fail; eauto.
      * destruct (skipn_nth _ _ _ _ El) as [Hi El']. inversion X; subst. split; [reflexivity|]. split; [|intros m []]. split; [exact P1|]. split; [exact P2|]. cbn [goto th_pc].
        split; [exact Hi|]. split; [reflexivity|]. split; [exists []; reflexivity|]. split; [reflexivity|]. cbn [map eager] in W. now apply bytes_group.
    + destruct P3 as (k0 & fs & Lo). pose proof Lo as (Hk & -> & (pre & ->) & El & W). destruct gs as [|f gs].
      * inversion X; subst. split; [reflexivity|]. split; [|intros m []]. split; [exact P1|]. split; [exact P2|]. cbn [goto th_pc]. split; [reflexivity|exact W].
      * pose proof (group_ok _ _ Hk) as Hg. apply Forall_app in Hg as [_ Hg]. inversion Hg as [|? ? Hf _]; subst.
        assert (Next : forall out', writes_on (gs ++ map eager (skipn (S k0) items)) out' -> proper (goto (Finish (Fields k0 gs (skipn (S k0) items) out')) t)).
        { intros out' W'. split; [exact P1|]. split; [exact P2|]. cbn [goto th_pc]. exists k0, (pre ++ f :: gs). split; [exact Hk|]. split; [reflexivity|].
          split; [exists (pre ++ [f]); now rewrite <- app_assoc|]. auto. }
        assert (Cases : write_lazy_field h f (lo_attrs o) out = write_field h f E out \/ exists out', write_lazy_field h f (lo_attrs o) out = (Err KeyError, out')).
        { destruct f as [n m d|m| | | | |]; try contradiction; cbn [write_lazy_field]; [|left; reflexivity].
          assert (I : In n groups). { eapply not_group; [exact Hk|]. rewrite flat_map_app. apply in_or_app. right. now left. }
          destruct (g_in _ G n I) as [L|L]; rewrite L; [right; eexists; reflexivity|]. destruct (lookup E n) as [v|] eqn:Le; [|now destruct (Hthere n I)].
          left. apply write_names. intros n' [<-|[]]. now rewrite L, Le. }
        destruct Cases as [C|(out' & C)]; rewrite C in X.
        -- cbn [app] in W. destruct (write_field h f E out) as [[u|e] out'] eqn:F; inversion X; subst; (split; [reflexivity|]); (split; [|intros m []]).
           ++ apply Next. eapply bytes_next; eauto.
           ++ apply finish_proper; [exact P|]. eapply bytes_fail; eauto.
        -- inversion X; subst. split; [reflexivity|]. split; [|intros m []]. apply finish_proper; [exact P|]. apply (race _ k0 (pre ++ f :: gs) KeyError Lo). auto.
Qed.

Record fair (w : shared) : Prop := {
  f_obj : good (sh_obj w);
  f_threads : forall t, In t (sh_threads w) -> proper t;
  f_done : forall k fs n, nth_error items k = Some (ILazy fs) -> In n (flat_map stored_names fs) -> pending k (lo_data (sh_obj w)) = None ->
    lookup (lo_attrs (sh_obj w)) n = lookup E n \/ exists t, In t (sh_threads w) /\ busy n t
}.
Lemma sstep_fair i w : fair w -> fair (sstep h cls cctx items i w).
Proof.
  intros [F1 F2 F3]. unfold sstep. destruct (nth_error (sh_threads w) i) as [t|] eqn:Ht; [|now split].
  destruct (tstep h cls cctx items (sh_obj w) t) as [o' t'] eqn:St.
  destruct (tstep_proper _ _ _ _ F1 (F2 t (nth_error_In _ _ Ht)) St) as (G & P & D).
  assert (Nn : nth_error (sh_threads w) i <> None) by congruence.
  split; cbn [sh_obj sh_threads].
  - exact G.
  - intros x Hx. destruct (put_in _ _ _ _ Hx) as [->|Hx']; auto.
  - intros k fs n Hk I Pn. destruct (D k fs n Hk I Pn) as [B|(Pn' & D1 & D2)].
    + right. exists t'. split; [now apply put_there|exact B].
    + destruct (F3 k fs n Hk I Pn') as [L|(t0 & H0 & B0)]; [left; auto|].
      destruct (put_keeps i t' _ _ H0) as [Hi|Hi]; [|right; eauto]. assert (t0 = t) as -> by congruence. left. auto.
Qed.
Lemma schedule_fair l : forall w, fair w -> fair (schedule h cls cctx items l w).
Proof. induction l as [|i l IH]; intros w F; [exact F|]. cbn [schedule]. apply IH. now apply sstep_fair. Qed.
Lemma over_refines w : fair w -> over w -> refines h cls cctx items E (sh_obj w).
Proof.
  intros [F1 F2 F3] Ov. split.
  - exact (g_pending _ F1).
  - intros n H. destruct (in_dec String.string_dec n groups) as [I|I]; [|now apply (g_off _ F1)].
    destruct (group_of items n I) as (k & fs & Hk & J). destruct (F3 k fs n Hk J (H k fs Hk J)) as [L|(t & Ht & B)]; [exact L|].
    destruct (Ov t Ht) as [_ Pc]. unfold busy in B. rewrite Pc in B. contradiction.
  - intros k fs n Hk I. apply Hthere. eapply not_group; eauto.
Qed.
End Shared.

(** ** Objects that were read *)
Lemma read_unset h cls cctx items n : Forall (item_ok h) items -> NoDup (flat_map item_names items) -> In n (flat_map group_names items) ->
  forall c s o s', lazy_read h cls cctx items c s = (Ok o, s') -> lookup (lo_attrs o) n = None.
Proof.
  intros H N G c s o s' R. pose proof (new_unset h cls cctx items [] n H N G eq_refl) as U.
  assert (L0 : lookup (lo_attrs (lazy_new items [])) n = None).
  { unfold lazy_get in U. destruct (owner 0 items n) as [[k fs]|]; unfold sbind, instantiate, sget, slift in U.
    - change (lo_data (lazy_new items [])) with (@nil (nat * (list Z * ctx))) in U. cbn [pending fst] in U. destruct (lookup (lo_attrs (lazy_new items [])) n); [discriminate|reflexivity].
    - cbn [fst] in U. destruct (lookup (lo_attrs (lazy_new items [])) n); [discriminate|reflexivity]. }
  destruct (group_of items n G) as (k & fs & Hk & I).
  assert (Q : forall f, In (IField f) items -> ~ In n (stored_names f)) by (intros f Hf; apply In_nth_error in Hf as (j & Hj); intros Hf; exact (field_not_lazy items N j f k fs n Hj Hk Hf I)).
  unfold lazy_read in R. destruct (read_items h cls cctx c 0 items (s, lazy_new items [])) as [[[]|e] [s1 o1]] eqn:X; [|discriminate]. inversion R; subst. clear R.
  revert X L0 Q. generalize (lazy_new items []) as o0. generalize 0%nat as j. revert s. clear - H. induction H as [|i r Hi _ IH]; intros s j o0 X L Q.
  - cbn in X. now inversion X; subst.
  - cbn [read_items] in X. unfold sbind in X. destruct (read_item h cls cctx c j i (s, o0)) as [[[]|e] [s1 o1]] eqn:Y; [|discriminate].
    eapply IH; [exact X| |intros f Hf; apply Q; now right]. destruct i as [f|fs].
    + unfold read_item in Y. cbn [fst snd] in Y. destruct (blind_all h f Hi s) as (r0 & s2 & vals & In_ & R0). rewrite R0 in Y. inversion Y; subst. cbn [lo_attrs].
      rewrite set_all_other; [exact L|]. intros J. apply (Q f (or_introl eq_refl)). now apply In_.
    + unfold read_item in Y. cbn [fst snd] in Y. destruct (lazy_size fs) as [z|e]; [|discriminate]. destruct (sread z s) as [[d|e] s2]; [|discriminate]. inversion Y; subst. exact L.
Qed.
Lemma read_reading h cls cctx items c s E s' : Forall (item_ok h) items -> NoDup (flat_map item_names items) -> stream_ok s ->
  read h (MStruct cls cctx (map eager items)) c s = (Ok (VObj cls E), s') ->
  exists o, lazy_read h cls cctx items c s = (Ok o, s') /\ reading h cls cctx items (List.length items) E o.
Proof.
  intros Hall Hnd O Er. rewrite read_struct in Er.
  destruct (read_fields h cls cctx (map eager items) c (s, new_attrs (map eager items) [])) as [[[]|e] [s1 E1]] eqn:X; [|discriminate].
  injection Er as -> ->.
  destruct (read_rest h cls cctx items Hnd c Hall items 0 s (new_attrs (map eager items) []) (lazy_new items []) s' E eq_refl O) as (o & Y & R); [|exact X|].
  - split; [apply new_off; now apply (ok_lazy h)|lia|]. intros k d P. discriminate.
  - exists o. split; [unfold lazy_read; now rewrite Y|exact R].
Qed.
Lemma start_fair h cls cctx items c s E s' programs : Forall (item_ok h) items -> NoDup (flat_map item_names items) -> stream_ok s ->
  read h (MStruct cls cctx (map eager items)) c s = (Ok (VObj cls E), s') -> only_reads programs ->
  exists o, lazy_read h cls cctx items c s = (Ok o, s') /\ reading h cls cctx items (List.length items) E o
    /\ fair h cls cctx items E (start o programs) /\ forall n, In n (flat_map group_names items) -> lookup E n <> None.
Proof.
  intros Hall Hnd O Er Og. destruct (read_reading h cls cctx items c s E s' Hall Hnd O Er) as (o & R & Rd). exists o. split; [exact R|]. split; [exact Rd|].
  pose proof (reading_refines h cls cctx items E o Rd) as Rf. split.
  - split.
    + split; cbn [start sh_obj].
      * exact (rd_off _ _ _ _ _ _ _ Rd).
      * intros n I. left. eapply read_unset; eauto.
      * exact (rf_pending _ _ _ _ _ _ Rf).
    + intros t Ht. cbn [start sh_threads] in Ht. apply in_map_iff in Ht as (l & <- & Hl). split; [|split; [intros u r []|exact Logic.I]]. cbn [th_todo]. intros u Hu. eapply Og; eauto.
    + cbn [start sh_obj]. intros k fs n Hk I Pn. assert (L : (k < List.length items)%nat) by (apply nth_error_Some; congruence).
      destruct (rd_in _ _ _ _ _ _ _ Rd k fs L Hk) as (data & c' & P & _). congruence.
  - intros n I. destruct (group_of items n I) as (k & fs & Hk & J). eapply (rf_there _ _ _ _ _ _ Rf); eauto.
Qed.
Lemma shared_reads h cls cctx items c s E s' programs : Forall (item_ok h) items -> NoDup (flat_map item_names items) -> stream_ok s ->
  read h (MStruct cls cctx (map eager items)) c s = (Ok (VObj cls E), s') -> only_reads programs ->
  exists o, lazy_read h cls cctx items c s = (Ok o, s') /\ forall l i u r,
    In (u, r) (got (schedule h cls cctx items l (start o programs)) i) ->
    answer_of (u, r) = fst (use_eager h cls cctx (map eager items) (use_of u) E) \/ (touches items u /\ (r = Err KeyError \/ r = Err AttributeError)).
Proof.
  intros Hall Hnd O Er Og. destruct (start_fair h cls cctx items c s E s' programs Hall Hnd O Er Og) as (o & R & _ & F & T). exists o. split; [exact R|].
  intros l i u r I. pose proof (schedule_fair h cls cctx items E Hall Hnd T l _ F) as F'. unfold got in I.
  destruct (nth_error (sh_threads (schedule h cls cctx items l (start o programs))) i) as [t|] eqn:Ht; [|destruct I].
  destruct (f_threads _ _ _ _ _ _ F' t (nth_error_In _ _ Ht)) as (_ & P & _). exact (P u r I).
Qed.
Lemma shared_settles h cls cctx items c s E s' programs : Forall (item_ok h) items -> NoDup (flat_map item_names items) -> stream_ok s ->
  read h (MStruct cls cctx (map eager items)) c s = (Ok (VObj cls E), s') -> only_reads programs ->
  exists o, lazy_read h cls cctx items c s = (Ok o, s') /\ forall l, over (schedule h cls cctx items l (start o programs)) ->
    forall us, history_lazy h cls cctx items us (sh_obj (schedule h cls cctx items l (start o programs))) = history_eager h cls cctx (map eager items) us E.
Proof.
  intros Hall Hnd O Er Og. destruct (start_fair h cls cctx items c s E s' programs Hall Hnd O Er Og) as (o & R & _ & F & T). exists o. split; [exact R|].
  intros l Ov us. apply history_refines; [now apply (ok_lazy h)|exact Hnd|]. apply over_refines; auto. now apply schedule_fair.
Qed.

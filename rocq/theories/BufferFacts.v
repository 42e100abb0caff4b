(** Proofs: evaluation inside pack and unpack. *)
From Verif Require Import Base BaseProofs Marshal Range RangeRef RangeSpec IoBuffer IoSpec IoProofs IoFacts IoOutput
  RefEngine RefSpec RefProofs RefStatic RefSteady BufferModel BufferSpec BufferPlace.
From Coq Require Import ZArith List Bool String Lia ZifyBool ZifyNat.
Import ListNotations.
Open Scope list_scope.
Open Scope Z_scope.
Ltac Zify.zify_post_hook ::= Z.div_mod_to_equations.

Lemma rid_eqb_spec a b : rid_eqb a b = true <-> a = b.
Proof.
  destruct a as [k i], b as [k' j]. unfold rid_eqb. cbn [r_kind r_no]. rewrite andb_true_iff, Nat.eqb_eq. split.
  - intros (A & B). apply internal_kind_dec_bl in A. congruence.
  - intros E. inversion E; subst. split; [now apply internal_kind_dec_lb|reflexivity].
Qed.

Definition field_kind (k : kind) : bool := match k with KUser | KTotal => false | _ => true end.
Ltac rin := first [assumption
  | match goal with K : forall k, field_kind k = true -> _ |- _ => apply K; reflexivity end
  | match goal with K : forall k, field_kind k = true -> _, F : f_before _ = Some _ |- _ => exact K end].

(** ** The reference graph of a class is finite *)
Section Finite.
Variable C : cls.

Lemma in_user k : (k < List.length (k_users C))%nat -> rid_in C (mkRid KUser k).
Proof. intros H. right. apply in_or_app. left. apply in_map. apply in_seq. lia. Qed.
Lemma in_field k i : field_kind k = true -> field_no C i -> rid_in C (mkRid k i).
Proof.
  intros Hk Hi. right. apply in_or_app. right. apply in_flat_map. exists i. split; [apply in_seq; unfold field_no in Hi; lia|].
  destruct k; try discriminate; cbn; tauto.
Qed.
Lemma in_inv r : rid_in C r -> r = mkRid KTotal 0 \/ (r_kind r = KUser /\ (r_no r < List.length (k_users C))%nat)
  \/ (field_kind (r_kind r) = true /\ field_no C (r_no r)).
Proof.
  intros [H|H]; [auto|]. apply in_app_or in H. destruct H as [H|H].
  - apply in_map_iff in H. destruct H as (k & <- & Hk). apply in_seq in Hk. right. left. cbn. split; [auto|lia].
  - apply in_flat_map in H. destruct H as (i & Hi & H). apply in_seq in Hi. right. right. unfold field_no.
    apply in_map_iff in H. destruct H as (k & <- & Hk). cbn. split; [|lia].
    cbn in Hk. repeat destruct Hk as [<-|Hk]; auto; destruct Hk.
Qed.
Lemma numbered_in i f : In (i, f) (numbered C) <-> nth_error (k_fields C) i = Some f.
Proof.
  unfold numbered. generalize (k_fields C) as l. intros l.
  assert (G : forall l k i, In (i, f) (combine (seq k (List.length l)) l) <-> (k <= i)%nat /\ nth_error l (i - k) = Some f).
  { clear. induction l as [|x l IH]; intros k i; cbn [List.length seq combine].
    - split; [intros []|]. intros (_ & H). destruct (i - k)%nat; discriminate.
    - split.
      + intros [H|H].
        * inversion H; subst. split; [lia|]. now rewrite Nat.sub_diag.
        * apply IH in H. destruct H as (H1 & H2). split; [lia|]. replace (i - k)%nat with (S (i - S k)) by lia. exact H2.
      + intros (H1 & H2). destruct (Nat.eq_dec i k) as [->|N].
        * rewrite Nat.sub_diag in H2. cbn in H2. left. congruence.
        * right. apply IH. split; [lia|]. replace (i - k)%nat with (S (i - S k)) in H2 by lia. exact H2. }
  rewrite G. rewrite Nat.sub_0_r. split; [tauto|]. intros H. split; [lia|auto].
Qed.

Lemma numbered_no i f : In (i, f) (numbered C) -> field_no C i.
Proof. intros H. apply numbered_in in H. unfold field_no. apply nth_error_Some. congruence. Qed.

Notation RI := (refs_in (all_rids C)).
Lemma ri_lift m k : (forall v, RI (k v)) -> RI (lift m k).
Proof. intros H. destruct m; cbn [lift]; [auto|constructor]. Qed.
Lemma ri_ret m : RI (ret m).
Proof. apply ri_lift. intros; constructor. Qed.
Lemma ri_ev a k : arg_in C a -> (forall v, RI (k v)) -> RI (ev a k).
Proof. intros Ha H. destruct a; cbn [ev]; [auto|]. constructor; auto. Qed.
Lemma ri_ev_list l : forall k, Forall (arg_in C) l -> (forall v, RI (k v)) -> RI (ev_list l k).
Proof.
  induction l as [|a l IH]; intros k Hl H; cbn [ev_list]; [auto|]. inversion Hl; subst.
  apply ri_ev; [auto|]. intros v. apply IH; auto.
Qed.
Lemma ri_ev_refs l : forall k, Forall (rid_in C) l -> (forall v, RI (k v)) -> RI (ev_refs l k).
Proof.
  induction l as [|a l IH]; intros k Hl H; cbn [ev_refs]; [auto|]. inversion Hl; subst. constructor; [auto|]. intros v. apply IH; auto.
Qed.
Lemma ri_if_pack p u : RI p -> RI u -> RI (if_pack p u).
Proof. intros. constructor. intros v. now destruct (truthy v). Qed.
Lemma ri_get n k : (forall v, RI (k v)) -> RI (get_attr n k).
Proof. intros. now constructor. Qed.
Lemma ri_assign n v : RI (assign n v).
Proof. constructor. intros; constructor. Qed.
Lemma ri_size o r k : rid_in C r -> (forall v, RI (k v)) -> RI (with_size o r k).
Proof. intros Hr H. destruct o; cbn [with_size]; [auto|]. constructor; auto. Qed.

Hypothesis Hok : cls_ok C.

Lemma ri_unpack_ends l : incl l (numbered C) -> forall k, (forall v, RI (k v)) -> RI (unpack_ends l k).
Proof.
  induction l as [|[i f] l IH]; intros Hl k H; cbn [unpack_ends]; [auto|].
  assert (Hin : In (i, f) (numbered C)) by (apply Hl; now left).
  assert (Hl' : incl l (numbered C)) by (intros x Hx; apply Hl; now right).
  pose proof (numbered_no _ _ Hin) as Hi. apply numbered_in in Hin. apply nth_error_In in Hin.
  pose proof (proj1 (Forall_forall _ _) (proj2 Hok) _ Hin) as (_ & _ & _ & F4 & _).
  constructor; [exact F4|]. intros c. destruct (truthy c); [|apply IH; auto].
  constructor; [apply in_field; auto|]. intros p. constructor; [apply in_field; auto|]. intros q.
  match goal with |- RI (match ?m with _ => _ end) => destruct m end; [apply IH; auto|constructor].
Qed.

Lemma ri_total : RI (total_prog C).
Proof.
  constructor. intros z. destruct z as [[]| | | |]; try constructor. intros v. destruct (truthy v).
  - apply ri_ev_refs; [|intros; apply ri_ret]. apply Forall_forall. intros x Hx. apply in_map_iff in Hx.
    destruct Hx as ([i f] & <- & Hx). apply in_field; [reflexivity|]. cbn. eapply numbered_no, Hx.
  - apply ri_unpack_ends; [apply incl_refl|]. intros l. destruct l; constructor.
Qed.

Lemma find_field_no n : forall l i, find_field n l = Some i -> exists f, In (i, f) l.
Proof.
  induction l as [|[j f] l IH]; intros i H; cbn [find_field] in H; [discriminate|].
  destruct (String.eqb (f_name f) n); [inversion H; subst; exists f; now left|]. destruct (IH i H) as (g & Hg). exists g. now right.
Qed.

Lemma finite_nodes : finite_graph (nodes C) (all_rids C).
Proof.
  intros r Hr. destruct Hok as (Hu & Hf). apply in_inv in Hr. unfold nodes. destruct Hr as [->|[(Hk & Hn)|(Hk & Hn)]].
  - exact ri_total.
  - rewrite Hk. destruct (nth_error (k_users C) (r_no r)) as [u|] eqn:Eu; [|constructor].
    apply nth_error_In in Eu. pose proof (proj1 (Forall_forall _ _) Hu _ Eu) as Iu.
    destruct u; cbn [user_prog uref_in] in *.
    + constructor.
    + destruct Iu. apply ri_ev; [auto|]. intros x. apply ri_ev; [auto|]. intros y. apply ri_ret.
    + apply ri_ev; [auto|]. intros. apply ri_ret.
    + apply ri_ev; [auto|]. intros. constructor.
    + destruct Iu. apply ri_ev; [auto|]. intros x. apply ri_ev; [auto|]. intros y. apply ri_ret.
    + apply ri_ev; [auto|]. intros. apply ri_ret.
    + apply ri_ev_list; [auto|]. intros. apply ri_ret.
    + destruct Iu. constructor; [auto|]. intros w. unfold some_ranges. destruct (as_ranges w) as [[|]|]; try constructor.
      apply ri_ev; [auto|]. intros. apply ri_ret.
    + destruct Iu as (I1 & I2 & I3). constructor; [auto|]. intros w. unfold some_ranges. destruct (as_ranges w) as [[|]|]; try constructor.
      apply ri_ev; [auto|]. intros x. apply ri_ev; [auto|]. intros y. apply ri_ret.
    + destruct (nth_error (k_fields C) i) as [f|] eqn:Ef; [|constructor]. unfold after_prog.
      assert (Hf' : rid_in C (f_where_unpack f)).
      { apply nth_error_In in Ef. pose proof (proj1 (Forall_forall _ _) Hf _ Ef) as (_ & F2 & _). exact F2. }
      apply ri_if_pack.
      * constructor; [apply in_field; auto|]. intros; apply ri_ret.
      * constructor; [auto|]. intros w. destruct (as_ranges w) as [l|]; [|constructor]. destruct (list_is_open l).
        -- constructor; [apply in_field; auto|]. intros; apply ri_ret.
        -- constructor; [apply in_field; auto|]. intros; apply ri_ret.
    + exact ri_total.
    + apply ri_ev; [auto|]. intros. apply ri_ret.
    + apply ri_ev_list; [auto|]. intros. apply ri_ret.
    + apply ri_ev_list; [auto|]. intros. apply ri_ret.
    + constructor. intros; constructor.
    + destruct (find_field n (numbered C)) as [i|] eqn:E.
      * constructor. intros _. constructor; [|intros; constructor]. destruct (find_field_no _ _ _ E) as (f & Hin).
        apply in_field; [reflexivity|]. eapply numbered_no, Hin.
      * apply ri_get. intros; constructor.
    + constructor; [apply in_field; auto|]. intros; constructor.
    + apply ri_ev_list; [auto|]. intros. apply ri_ret.
    + apply ri_ev_list; [auto|]. intros. constructor. intros; constructor.
  - assert (exists f, nth_error (k_fields C) (r_no r) = Some f) as (f & Ef).
    { destruct (nth_error (k_fields C) (r_no r)) eqn:E; [eauto|]. apply nth_error_None in E. unfold field_no in Hn. lia. }
    rewrite Ef. pose proof (proj1 (Forall_forall _ _) Hf _ (nth_error_In _ _ Ef)) as (F1 & F2 & F3 & F4 & F5 & F6 & F7 & F8).
    assert (K : forall k, field_kind k = true -> rid_in C (mkRid k (r_no r))) by (intros k Kk; apply in_field; auto).
    destruct (r_kind r); try discriminate; cbn [field_node].
    + constructor; [rin|]. intros w. destruct (as_ranges w) as [l|]; [|constructor].
      destruct (has_overlaps l) as [[|]|]; [constructor| |constructor]. destruct (list_is_open l); [|constructor].
      constructor; [rin|]. intros; apply ri_ret.
    + constructor; [rin|]. intros w. destruct (as_ranges w) as [l|]; [|constructor].
      destruct (list_is_open l); [constructor|]. constructor; [rin|]. intros; apply ri_ret.
    + unfold before_value. destruct (f_before f) as [[]|]; try constructor. intros; constructor.
    + unfold pack_value. destruct (f_before f) as [[]|] eqn:Fb.
      * constructor. intros _. constructor; [rin|]. intros; apply ri_assign.
      * apply ri_assign.
      * constructor. intros _. constructor; [rin|]. intros; apply ri_assign.
      * apply ri_get. intros; constructor.
    + constructor; [rin|]. intros v. apply ri_size; [rin|]. intros n. apply ri_ev_list; [assumption|]. intros; apply ri_ret.
    + constructor; [rin|]. intros w. destruct (as_ranges w) as [l|]; [|constructor].
      destruct (has_overlaps l) as [[|]|]; [constructor| |constructor]. destruct (list_is_open l); [|constructor].
      constructor. intros; constructor.
    + constructor; [rin|]. intros; apply ri_ret.
    + constructor; [rin|]. intros. constructor. intros; constructor.
    + constructor; [rin|]. intros v. apply ri_size; [rin|]. intros n. apply ri_ev_list; [assumption|]. intros. constructor. intros; constructor.
    + constructor; [rin|]. intros; apply ri_ret.
    + unfold unpack_value. destruct (f_after f).
      * constructor; [rin|]. intros; apply ri_ret.
      * constructor. intros _. constructor; [rin|]. intros; apply ri_assign.
    + apply ri_if_pack; (constructor; [rin|intros; constructor]).
Qed.

(** Evaluation always ends. *)
Lemma deref_ends r c s : rid_in C r -> c_nodes c = [] -> deref rid_eqb (nodes C) (fuel C) r c s <> None.
Proof.
  intros Hr Hc. apply (deref_total rid_eqb rid_eqb_spec (nodes C) (all_rids C) finite_nodes); auto.
  - rewrite Hc. constructor.
  - rewrite Hc. apply incl_nil_l.
  - unfold fuel. lia.
Qed.
End Finite.

(** ** What evaluation returns *)
Section Returns.
Context {R V St : Type}.
Variable eqb : R -> R -> bool.
Hypothesis eqb_spec : forall a b, eqb a b = true <-> a = b.
Variable nd : R -> prog R V St.

Inductive returns (T : V -> Prop) : prog R V St -> Prop :=
| ret_ret v : T v -> returns T (PRet v)
| ret_raise e : returns T (PRaise e)
| ret_ref r k : (forall v, returns T (k v)) -> returns T (PRef r k)
| ret_ctx f k : (forall s v s', f s = (Ok v, s') -> returns T (k v)) -> returns T (PCtx f k).

Variable T : R -> V -> Prop.
Hypothesis HT : forall r, returns (T r) (nd r).
Definition typed (m : list (R * V)) : Prop := forall r v, RefEngine.lookup eqb r m = Some v -> T r v.

Lemma deref_typed n : forall r c s o c' s', deref eqb nd n r c s = Some (o, c', s') -> typed (c_cache c) ->
  typed (c_cache c') /\ forall v, o = OOk v -> T r v.
Proof.
  induction n as [|n IH]; intros r c s o c' s' H Hc; [discriminate|]. cbn [deref] in H.
  destruct (mem eqb r (c_nodes c)); [inversion H; subst; split; [auto|discriminate]|].
  destruct (RefEngine.lookup eqb r (c_cache c)) as [w|] eqn:El.
  { inversion H; subst. split; [auto|]. intros v E. inversion E; subst. apply Hc, El. }
  assert (G : forall U p, returns U p -> forall c s o c' s', run (deref eqb nd n) p c s = Some (o, c', s') ->
    typed (c_cache c) -> typed (c_cache c') /\ forall v, o = OOk v -> U v).
  { clear - IH. intros U p. induction 1 as [v Hv|e|r k Hk IHk|f k Hk IHk]; intros c s o c' s' H Hc; cbn [run] in H.
    - inversion H; subst. split; [auto|]. intros w E. now inversion E; subst.
    - inversion H; subst. split; [auto|discriminate].
    - destruct (deref eqb nd n r c s) as [[[o1 c1] s1]|] eqn:E; [|discriminate].
      destruct (IH _ _ _ _ _ _ E Hc) as (T1 & _). destruct o1 as [v|e|x].
      + eapply IHk; eauto.
      + inversion H; subst. split; [auto|discriminate].
      + inversion H; subst. split; [auto|discriminate].
    - destruct (f s) as [[v|e] s1] eqn:Es.
      + eapply IHk; eauto.
      + inversion H; subst. split; [auto|discriminate]. }
  destruct (run (deref eqb nd n) (nd r) (push r c) s) as [[[o1 c1] s1]|] eqn:E; [|discriminate].
  destruct (G _ _ (HT r) _ _ _ _ _ E Hc) as (T1 & T2).
  destruct o1 as [v|e|x]; inversion H; subst; (split; [|try discriminate]).
  - cbn [pop store c_cache]. intros x w Lx. cbn [RefEngine.lookup] in Lx. destruct (eqb x r) eqn:Ex; [|auto].
    apply eqb_spec in Ex. inversion Lx; subst. auto.
  - intros w Ew. inversion Ew; subst. auto.
  - exact T1.
  - exact T1.
Qed.
End Returns.

(** ** What evaluation leaves alone *)
Section Keeps.
Context {R V St : Type}.
Variable eqb : R -> R -> bool.
Variable nd : R -> prog R V St.
Variable P : St -> St -> Prop.
Hypothesis Prefl : forall s, P s s.
Hypothesis Ptrans : forall a b c, P a b -> P b c -> P a c.

Inductive keeps : prog R V St -> Prop :=
| keep_ret v : keeps (PRet v)
| keep_raise e : keeps (PRaise e)
| keep_ref r k : (forall v, keeps (k v)) -> keeps (PRef r k)
| keep_ctx f k : (forall s x s', f s = (x, s') -> P s s') -> (forall v, keeps (k v)) -> keeps (PCtx f k).
Hypothesis HK : forall r, keeps (nd r).

Lemma deref_keeps n : forall r c s o c' s', deref eqb nd n r c s = Some (o, c', s') -> P s s'.
Proof.
  induction n as [|n IH]; intros r c s o c' s' H; [discriminate|]. cbn [deref] in H.
  destruct (mem eqb r (c_nodes c)); [inversion H; subst; auto|].
  destruct (RefEngine.lookup eqb r (c_cache c)) as [w|]; [inversion H; subst; auto|].
  assert (G : forall p, keeps p -> forall c s o c' s', run (deref eqb nd n) p c s = Some (o, c', s') -> P s s').
  { clear - IH Prefl Ptrans. intros p. induction 1 as [v|e|r k Hk IHk|f k Hf Hk IHk]; intros c s o c' s' H; cbn [run] in H.
    - inversion H; subst; auto.
    - inversion H; subst; auto.
    - destruct (deref eqb nd n r c s) as [[[o1 c1] s1]|] eqn:E; [|discriminate].
      pose proof (IH _ _ _ _ _ _ E). destruct o1; [eauto|inversion H; subst; auto|inversion H; subst; auto].
    - destruct (f s) as [[v|e] s1] eqn:Es; [|inversion H; subst; eauto]. eauto. }
  destruct (run (deref eqb nd n) (nd r) (push r c) s) as [[[o1 c1] s1]|] eqn:E; [|discriminate].
  pose proof (G _ (HK r) _ _ _ _ _ E). destruct o1; inversion H; subst; auto.
Qed.
End Keeps.

(** The input stays. *)
Definition same_input (s s' : bst) : Prop := s_input s' = s_input s.
Lemma si_ret m : keeps same_input (ret m).
Proof. destruct m; constructor. Qed.
Lemma si_ev a k : (forall v, keeps same_input (k v)) -> keeps same_input (ev a k).
Proof. intros H. destruct a; cbn [ev]; [auto|]. constructor; auto. Qed.
Lemma si_ev_list l : forall k, (forall v, keeps same_input (k v)) -> keeps same_input (ev_list l k).
Proof. induction l as [|a l IH]; intros k H; cbn [ev_list]; [auto|]. apply si_ev. intros v. apply IH; auto. Qed.
Lemma si_ev_refs l : forall k, (forall v, keeps same_input (k v)) -> keeps same_input (ev_refs l k).
Proof. induction l as [|a l IH]; intros k H; cbn [ev_refs]; [auto|]. constructor. intros v. apply IH; auto. Qed.
Lemma si_size o r k : (forall v, keeps same_input (k v)) -> keeps same_input (with_size o r k).
Proof. intros H. destruct o; cbn [with_size]; [auto|]. constructor; auto. Qed.
Lemma si_ctx (f : bst -> res rv * bst) (k : rv -> bprog) : (forall s, s_input (snd (f s)) = s_input s) ->
  (forall v, keeps same_input (k v)) -> keeps same_input (PCtx f k).
Proof. intros Hf Hk. constructor; [|exact Hk]. intros s x s' E. unfold same_input. rewrite <- (Hf s), E. reflexivity. Qed.
Lemma si_assign n v : keeps same_input (assign n v).
Proof. apply si_ctx; [|intros; constructor]. intros s. destruct (as_value v); reflexivity. Qed.
Lemma si_ends l : forall k, (forall v, keeps same_input (k v)) -> keeps same_input (unpack_ends l k).
Proof.
  induction l as [|[i f] l IH]; intros k H; cbn [unpack_ends]; [auto|]. constructor. intros c. destruct (truthy c); [|apply IH; auto].
  constructor. intros p. constructor. intros q. match goal with |- keeps _ (match ?m with _ => _ end) => destruct m end; [|constructor]. apply IH; auto.
Qed.
Ltac si := repeat first
  [ apply si_ret | apply si_assign | apply si_size; intros ? | apply si_ev; intros ? | apply si_ev_list; intros ? | apply si_ev_refs; intros ?
  | apply si_ends; intros ?
  | apply keep_ret | apply keep_raise | apply keep_ref; intros ?
  | apply si_ctx; [intros ?; cbn [snd]; try reflexivity; try (match goal with |- context [match ?m with _ => _ end] => destruct m; reflexivity end)|intros ?]
  | match goal with |- keeps _ (match ?m with _ => _ end) => destruct m end
  | match goal with |- keeps _ (if ?m then _ else _) => destruct m end ].
Lemma nodes_same_input C : forall r, keeps same_input (nodes C r).
Proof.
  intros r. assert (T : keeps same_input (total_prog C)) by (unfold total_prog, if_pack; si).
  unfold nodes. destruct (r_kind r); try exact T;
    try (destruct (nth_error (k_fields C) (r_no r)) as [f|]; [|constructor]; cbn [field_node]).
  - unfold pack_pos. si.
  - unfold pack_len. si.
  - unfold before_value. si.
  - unfold pack_value, get_attr. si.
  - unfold pack_ref. si.
  - unfold unpack_pos. si.
  - unfold unpack_len. si.
  - unfold BufferModel.part. si.
  - unfold unpack_ref. si.
  - unfold field_unpack. si.
  - unfold unpack_value. si.
  - unfold field_value, if_pack. si.
  - destruct (nth_error (k_users C) (r_no r)) as [u|]; [|constructor]. destruct u; cbn [user_prog]; try exact T;
      unfold after_prog, if_pack, get_attr, some_ranges; si.
Qed.
Lemma deref_input C n r c s o c' s' : deref rid_eqb (nodes C) n r c s = Some (o, c', s') -> s_input s' = s_input s.
Proof.
  intros H. apply (deref_keeps rid_eqb (nodes C) same_input) in H; auto.
  - intros x. reflexivity.
  - intros x y z A B. unfold same_input in *. congruence.
  - apply nodes_same_input.
Qed.

(** Packed fields are buffers, positions are range lists, unpacked fields are pairs. *)
Definition kind_ok (C : cls) (r : rid) (v : rv) : Prop :=
  match r_kind r with
  | KPack => exists b, v = RBuf b /\ (packers_ok C -> buf_ok b)
  | KPackPos | KUnpackPos => exists l, v = RRanges l
  | KUnpack => exists x n, v = RPair x n
  | KTotal => exists n, v = rnum n /\ (forall k, k_size C = Some k -> n = k)
  | _ => True
  end.
Lemma returns_ret (T : rv -> Prop) (m : res rv) : (forall v, m = Ok v -> T v) -> returns T (ret m).
Proof. intros H. destruct m; cbn; constructor. auto. Qed.
Lemma returns_ev_list (T : rv -> Prop) l : forall k, (forall v, returns T (k v)) -> returns T (ev_list l k).
Proof. induction l as [|a l IH]; intros k H; cbn [ev_list]; [auto|]. destruct a; cbn [ev]; [apply IH; auto|]. constructor. intros; apply IH; auto. Qed.
Lemma returns_size (T : rv -> Prop) o r k : (forall v, returns T (k v)) -> returns T (with_size o r k).
Proof. intros H. destruct o; cbn [with_size]; [auto|]. constructor. auto. Qed.
Lemma returns_any (p : bprog) : returns (fun _ => True) p.
Proof. induction p; constructor; auto. Qed.
Lemma as_ranges_inv w l : as_ranges w = Ok l -> w = RRanges l.
Proof. destruct w; cbn; congruence. Qed.

Lemma returns_unpack_ends (T : rv -> Prop) l : forall k, (forall v, returns T (k v)) -> returns T (unpack_ends l k).
Proof.
  induction l as [|[i f] l IH]; intros k H; cbn [unpack_ends]; [auto|]. constructor. intros c. destruct (truthy c).
  - constructor. intros p. constructor. intros q.
    match goal with |- returns _ (match ?m with _ => _ end) => destruct m end; [apply IH; auto|constructor].
  - apply IH. auto.
Qed.
Lemma returns_ev_refs (T : rv -> Prop) l : forall k, (forall v, returns T (k v)) -> returns T (ev_refs l k).
Proof. induction l as [|a l IH]; intros k H; cbn [ev_refs]; [auto|]. constructor. intros v. apply IH. auto. Qed.
Lemma returns_total C : returns (fun v => exists n, v = rnum n /\ (forall k, k_size C = Some k -> n = k)) (total_prog C).
Proof.
  unfold total_prog. constructor. intros s v s' H. inversion H; subst. clear H. destruct (k_size C) as [n|] eqn:Ek; cbn [rsize].
  { assert (G : exists n0, rnum n = rnum n0 /\ (forall k, Some n = Some k -> n0 = k)) by (exists n; split; [reflexivity|intros k Hk; congruence]).
    assert (X : (exists z, rnum n = RVal (VInt z)) \/ (exists z, rnum n = RFrac z)) by (unfold rnum; destruct (n mod 8 =? 0); eauto).
    destruct X as [(z & X)|(z & X)]; rewrite X in *; now constructor. }
  unfold if_pack. constructor. intros s v s2 H. destruct (truthy v).
  - apply returns_ev_refs. intros l. apply returns_ret. intros x Hx. destruct (rmap_list as_ranges l); [|discriminate]. cbn [rbind] in Hx.
    unfold opt_num in Hx. destruct (list_max_stop (List.concat a)) as [y|]; [|discriminate]. inversion Hx. exists y. split; [auto|discriminate].
  - apply returns_unpack_ends. intros [|x l]; constructor. eexists. split; [reflexivity|discriminate].
Qed.

Lemma nodes_kinds C : forall r, returns (kind_ok C r) (nodes C r).
Proof.
  intros r. unfold nodes. destruct (r_kind r) eqn:Hk;
    try (unfold kind_ok; rewrite Hk; exact (returns_total C));
    try (assert (E : kind_ok C r = fun _ => True) by (unfold kind_ok; now rewrite Hk); rewrite E; apply returns_any);
    destruct (nth_error (k_fields C) (r_no r)) as [f|] eqn:Ef; try constructor; cbn [field_node];
    unfold kind_ok; rewrite Hk.
  - intros w. destruct (as_ranges w) as [l|] eqn:Ew; [|constructor]. apply as_ranges_inv in Ew. subst w.
    destruct (has_overlaps l) as [[|]|]; [constructor| |constructor]. destruct (list_is_open l); [|constructor; eauto].
    constructor. intros p. apply returns_ret. intros v Hv. destruct (as_buf p); [|discriminate]. cbn [rbind] in Hv.
    destruct (close_packed (8 * blen a) 0 l) as [x|]; [|discriminate]. cbn in Hv. inversion Hv. eauto.
  - intros v. apply returns_size. intros n. apply returns_ev_list. intros args. apply returns_ret. intros x Hx.
    destruct (as_value v) as [v'|]; [|discriminate]. cbn [rbind] in Hx. destruct (opt_num_bits n) as [n'|]; [|discriminate].
    cbn [rbind] in Hx. destruct (f_pack f args v' n') as [b|] eqn:Eb; [|discriminate]. cbn [rbind] in Hx. inversion Hx; subst.
    exists b. split; [auto|]. intros Hp. eapply (proj1 (Forall_forall _ _) Hp f); [eapply nth_error_In; eauto|eauto].
  - intros w. destruct (as_ranges w) as [l|] eqn:Ew; [|constructor]. apply as_ranges_inv in Ew. subst w.
    destruct (has_overlaps l) as [[|]|]; [constructor| |constructor]. destruct (list_is_open l); [|constructor; eauto].
    constructor. intros s v s' H. destruct (s_input s) as [b|]; [|discriminate].
    destruct (list_to_closed l (8 * input_length b)) as [x|]; [|discriminate]. cbn in H. inversion H. constructor. eauto.
  - intros v. apply returns_size. intros n. apply returns_ev_list. intros args. constructor. intros s x s' H.
    destruct (as_buf v) as [b|]; [|discriminate]. cbn [rbind] in H. destruct (opt_num_bits n) as [n'|]; [|discriminate]. cbn [rbind] in H.
    destruct (f_unpack f args (s_obj s) b n') as [q|]; [|discriminate]. cbn [rbind] in H. inversion H. constructor. eauto.
Qed.

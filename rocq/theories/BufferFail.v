(** Proofs: what pack() and unpack() leave in the object, also when they raise. *)
From Verif Require Import Base BaseProofs IntCodec CodecSpec Stream Marshal FieldSpec Range RangeSpec RangeFacts RangeArith IoBuffer IoSpec IoProofs IoFacts FieldFacts
  Serialize SerializeSpec SerializeFacts SerializeLists RefEngine RefSpec RefProofs RefStatic RefSteady RefFail
  BufferModel BufferSpec BufferMacros BufferReadSpec BufferPlace BufferFacts BufferPack BufferLayout BufferTrip BufferDep BufferErrors BufferClass BufferConds BufferHooks
  BufferCodecs BufferReads BufferFailSpec.
From Coq Require Import ZArith List Bool String Lia ZifyBool ZifyNat.
Import ListNotations.
Open Scope list_scope.
Open Scope Z_scope.
Ltac Zify.zify_post_hook ::= Z.div_mod_to_equations.

(** ** Nothing but fields *)
Lemma only_refl C a : only_fields_changed C a a.
Proof. split; auto. Qed.
Lemma only_trans C a b c : only_fields_changed C a b -> only_fields_changed C b c -> only_fields_changed C a c.
Proof.
  intros (A1 & A2) (B1 & B2). split; [intros n Hn; rewrite B1, A1; auto|]. intros Hi. rewrite B2, A2; auto. rewrite A2; auto.
Qed.
Lemma only_set C a n v : In n (map f_name (k_fields C)) -> only_fields_changed C a (set_attr a n v).
Proof.
  intros Hn. split; [intros m Hm; apply lookup_set_other; intros ->; contradiction|]. intros Hi. apply set_attr_keys. auto.
Qed.

Section Only.
Variable C : cls.
Hypothesis Hfun : functions_assign_fields C.
Notation only := (only_fields_changed C).

Inductive tame : bprog -> Prop :=
| t_ret v : tame (PRet v)
| t_raise e : tame (PRaise e)
| t_ref r k : (forall v, tame (k v)) -> tame (PRef r k)
| t_ctx f k : (forall s, only (s_obj s) (s_obj (snd (f s)))) -> (forall v, tame (k v)) -> tame (PCtx f k).

Lemma t_res m : tame (ret m). Proof. destruct m; constructor. Qed.
Lemma t_look h k : (forall v, tame (k v)) -> tame (PCtx (fun s => (h s, s)) k).
Proof. intros H. constructor; [|exact H]. intros s. apply only_refl. Qed.
Lemma t_ev a k : (forall v, tame (k v)) -> tame (ev a k).
Proof. destruct a; cbn [ev]; auto. intros H. now constructor. Qed.
Lemma t_ev_list l : forall k, (forall vs, tame (k vs)) -> tame (ev_list l k).
Proof. induction l as [|a l IH]; intros k H; cbn [ev_list]; [apply H|]. apply t_ev. intros v. apply IH. auto. Qed.
Lemma t_ev_refs l : forall k, (forall vs, tame (k vs)) -> tame (ev_refs l k).
Proof. induction l as [|a l IH]; intros k H; cbn [ev_refs]; [apply H|]. constructor. intros v. apply IH. auto. Qed.
Lemma t_if_pack p u : tame p -> tame u -> tame (if_pack p u).
Proof. intros Hp Hu. apply t_look. intros v. destruct (truthy v); assumption. Qed.
Lemma t_some w k : (forall l, tame (k l)) -> tame (some_ranges w k).
Proof. intros H. unfold some_ranges. destruct (as_ranges w) as [[|x l]|]; auto; constructor. Qed.
Lemma t_assign n w : In n (map f_name (k_fields C)) -> tame (assign n w).
Proof.
  intros Hn. unfold assign. constructor; [|intros; constructor]. intros s. destruct (as_value w); cbn [snd s_obj]; [now apply only_set|apply only_refl].
Qed.

Lemma field_named i f : nth_error (k_fields C) i = Some f -> In (f_name f) (map f_name (k_fields C)).
Proof. intros H. apply in_map. eapply nth_error_In; eauto. Qed.
Lemma t_ends l : forall k, (forall xs, tame (k xs)) -> tame (unpack_ends l k).
Proof.
  induction l as [|[i f] l IH]; intros k H; cbn [unpack_ends]; [apply H|]. constructor. intros c. destruct (truthy c); [|apply IH; auto].
  constructor. intros p. constructor. intros q. destruct (rbind _ _); [|constructor]. apply IH; auto.
Qed.
Lemma t_total : tame (total_prog C).
Proof.
  unfold total_prog. apply t_look. intros v. assert (G : tame (if_pack
          (ev_refs (map (fun p => mkRid KPackPos (fst p)) (numbered C)) (fun l =>
             ret (let* ls := rmap_list as_ranges l in opt_num (list_max_stop (List.concat ls)))))
          (unpack_ends (numbered C) (fun l =>
             match l with [] => PRaise ValueError | x :: r => PRet (rnum (fold_left Z.max r x)) end)))).
  { apply t_if_pack; [apply t_ev_refs; intros; apply t_res|]. apply t_ends. intros [|x xs]; constructor. }
  destruct v as [[]| | | |]; first [exact G | apply t_ret].
Qed.
Lemma t_after i f : tame (after_prog i f).
Proof.
  unfold after_prog. apply t_if_pack; constructor; [intros; apply t_res|]. intros w. destruct (as_ranges w); [|constructor].
  destruct (list_is_open _); constructor; intros; apply t_res.
Qed.
Lemma t_user u : In u (k_users C) -> tame (user_prog C u).
Proof.
  intros Hu. destruct u; cbn [user_prog].
  - apply t_ret.
  - apply t_ev. intros. apply t_ev. intros. apply t_res.
  - apply t_ev. intros. apply t_res.
  - apply t_ev. intros. apply t_ret.
  - apply t_ev. intros. apply t_ev. intros. apply t_res.
  - apply t_ev. intros. apply t_res.
  - apply t_ev_list. intros. apply t_res.
  - apply t_ref. intros w. apply t_some. intros. apply t_ev. intros. apply t_res.
  - apply t_ref. intros w. apply t_some. intros. apply t_ev. intros. apply t_ev. intros. apply t_res.
  - destruct (nth_error (k_fields C) i); [apply t_after|apply t_raise].
  - apply t_total.
  - apply t_ev. intros. apply t_res.
  - apply t_ev_list. intros. apply t_res.
  - apply t_ev_list. intros. apply t_res.
  - apply t_look. intros. apply t_ret.
  - destruct (find_field n (numbered C)); apply t_look; intros; [apply t_ref; intros|]; apply t_ret.
  - apply t_ref. intros. apply t_ret.
  - apply t_ev_list. intros. apply t_res.
  - apply t_ev_list. intros vs. constructor; [|intros; constructor]. intros s. pose proof (proj1 (Forall_forall _ _) (proj2 Hfun) _ Hu vs (s_obj s)) as K. cbv beta iota in K.
    destruct (f vs (s_obj s)). exact K.
Qed.
Lemma t_node r : tame (nodes C r).
Proof.
  destruct r as [k i]. unfold nodes. cbn [r_kind r_no].
  destruct k; try (destruct (nth_error (k_fields C) i) as [f|] eqn:E; [|constructor]; cbn [field_node]; pose proof (field_named _ _ E) as N).
  - constructor. intros w. destruct (as_ranges w); [|constructor]. destruct (has_overlaps _) as [[]|]; try constructor. destruct (list_is_open _); constructor. intros. apply t_res.
  - constructor. intros w. destruct (as_ranges w); [|constructor]. destruct (list_is_open _); constructor. intros. apply t_res.
  - unfold before_value. pose proof (proj1 (Forall_forall _ _) (proj1 Hfun) _ (nth_error_In _ _ E)) as Q. cbv beta in Q.
    destruct (f_before f) as [[h|x|r]|]; try constructor; [|intros; constructor]. intros s. specialize (Q (s_obj s)). destruct (h (s_obj s)). exact Q.
  - unfold pack_value. destruct (f_before f) as [[h|x|r]|].
    + apply t_look. intros. constructor. intros. now apply t_assign.
    + now apply t_assign.
    + apply t_look. intros. constructor. intros. now apply t_assign.
    + apply t_look. intros. constructor.
  - constructor. intros. unfold with_size. destruct (f_size f); [|constructor; intros]; apply t_ev_list; intros; apply t_res.
  - constructor. intros w. destruct (as_ranges w); [|constructor]. destruct (has_overlaps _) as [[]|]; try constructor. destruct (list_is_open _); [|constructor]. apply t_look. intros. constructor.
  - constructor. intros. apply t_res.
  - constructor. intros. apply t_look. intros. constructor.
  - constructor. intros. unfold with_size. destruct (f_size f); [|constructor; intros]; apply t_ev_list; intros; apply t_look; intros; constructor.
  - constructor. intros. apply t_res.
  - unfold unpack_value. destruct (f_after f); [constructor; intros; apply t_res|]. apply t_look. intros. constructor. intros. now apply t_assign.
  - apply t_if_pack; constructor; intros; constructor.
  - destruct (nth_error (k_users C) i) as [u|] eqn:E; [|constructor]. apply t_user. eapply nth_error_In; eauto.
  - apply t_total.
Qed.

Lemma deref_only n : forall r c s x c' s', deref rid_eqb (nodes C) n r c s = Some (x, c', s') -> only (s_obj s) (s_obj s').
Proof.
  induction n as [|n IH]; intros r c s x c' s' H; [discriminate|]. cbn [deref] in H.
  destruct (mem rid_eqb r (c_nodes c)); [inversion H; subst; apply only_refl|].
  destruct (RefEngine.lookup rid_eqb r (c_cache c)); [inversion H; subst; apply only_refl|].
  assert (G : forall p, tame p -> forall c s x c' s', run (deref rid_eqb (nodes C) n) p c s = Some (x, c', s') -> only (s_obj s) (s_obj s')).
  { clear - IH. induction 1 as [v|e|r k Hk IHk|f k Hf Hk IHk]; intros c s x c' s' H; cbn [run] in H; try (inversion H; subst; apply only_refl).
    - destruct (deref rid_eqb (nodes C) n r c s) as [[[[v|e|q] c1] s1]|] eqn:E; try discriminate; pose proof (IH _ _ _ _ _ _ E) as T; try (inversion H; subst; exact T).
      eapply only_trans; [exact T|eauto].
    - specialize (Hf s). destruct (f s) as [[v|e] s1]; cbn [snd] in Hf; [eapply only_trans; [exact Hf|eauto]|inversion H; subst; exact Hf]. }
  destruct (run (deref rid_eqb (nodes C) n) (nodes C r) (push r c) s) as [[[o1 c1] s1]|] eqn:E; [|discriminate].
  pose proof (G _ (t_node r) _ _ _ _ _ E) as T. destruct o1; inversion H; subst; exact T.
Qed.

Definition keeps_only {A} (m : stM world A) : Prop := forall w x w', m w = (x, w') -> only (s_obj (w_st w)) (s_obj (w_st w')).
Lemma ko_dref r : keeps_only (dref C r).
Proof.
  intros w x w'. unfold dref. destruct (deref rid_eqb (nodes C) (fuel C) r (w_ctx w) (w_st w)) as [[[o c] s]|] eqn:E; [|intros [= <- <-]; apply only_refl].
  apply deref_only in E. destruct o; intros [= <- <-]; exact E.
Qed.
Lemma ko_bind {A B} (m : stM world A) (k : A -> stM world B) : keeps_only m -> (forall a, keeps_only (k a)) -> keeps_only (sbind m k).
Proof.
  intros Hm Hk w x w'. unfold sbind. destruct (m w) as [[a|e] w1] eqn:E; intros H.
  - eapply only_trans; [exact (Hm _ _ _ E)|exact (Hk _ _ _ _ H)].
  - injection H as <- <-. exact (Hm _ _ _ E).
Qed.
Lemma ko_wrap {A} (m : stM world A) : keeps_only m -> keeps_only (wrap m).
Proof. intros Hm w x w'. unfold wrap. destruct (m w) as [[a|e] w1] eqn:E; intros [= <- <-]; exact (Hm _ _ _ E). Qed.
Lemma ko_ret {A} (a : A) : keeps_only (sret a).
Proof. intros w x w' [= <- <-]. apply only_refl. Qed.
Lemma ko_lift {A} (a : res A) : keeps_only (slift a).
Proof. intros w x w' [= <- <-]. apply only_refl. Qed.
Lemma ko_foreach {A} (l : list A) (f : A -> stM world unit) : (forall a, In a l -> keeps_only (f a)) -> keeps_only (sforeach l f).
Proof.
  induction l as [|a l IH]; intros H; cbn [sforeach]; [apply ko_ret|]. apply ko_bind; [apply H; now left|]. intros _. apply IH. intros b Hb. apply H. now right.
Qed.
Lemma ko_pack i f : keeps_only (pack_field C i f).
Proof.
  unfold pack_field. apply ko_bind; [apply ko_dref|]. intros c. destruct (truthy c); [|apply ko_ret]. apply ko_wrap.
  apply ko_bind; [apply ko_dref|]. intros. apply ko_bind; [apply ko_dref|]. intros. apply ko_bind; [apply ko_lift|]. intros. apply ko_bind; [apply ko_lift|]. intros.
  intros w x w'. unfold out_set. destruct (output_set _ _ _) as [[]]; intros [= <- <-]; apply only_refl.
Qed.
Lemma ko_unpack i f : In (i, f) (numbered C) -> keeps_only (unpack_field C i f).
Proof.
  intros Hin. apply numbered_in in Hin. apply ko_wrap. apply ko_bind; [apply ko_dref|]. intros c. destruct (truthy c).
  - apply ko_bind; [|intros; apply ko_bind; [apply ko_dref|intros; apply ko_ret]]. apply ko_foreach. intros j _. apply ko_bind; [apply ko_dref|intros; apply ko_ret].
  - intros w x w' [= <- <-]. cbn [w_st s_obj]. eapply only_set, field_named; eauto.
Qed.
Lemma pack_only o r o' : buffer_pack C o = (r, o') -> only o o'.
Proof.
  unfold buffer_pack. destruct (sforeach (numbered C) (fun p => pack_field C (fst p) (snd p)) (start_pack o)) as [y w] eqn:E.
  apply ko_foreach in E; [|intros [i f] _; apply ko_pack]. destruct y; intros [= _ <-]; exact E.
Qed.
Lemma unpack_only b o r o' : buffer_unpack C b o = (r, o') -> only o o'.
Proof.
  unfold buffer_unpack. destruct (input_buffer b) as [v|]; [|intros [= _ <-]; apply only_refl].
  destruct (sforeach (numbered C) (fun p => unpack_field C (fst p) (snd p)) (mkW new_ctx (mkBst o (Some v)) (new_baa []))) as [y w] eqn:E.
  apply ko_foreach in E; [|intros [i f] Hin; now apply ko_unpack]. cbn [w_st s_obj] in E. destruct y as [u|e]; [|intros [= _ <-]; exact E].
  destruct (dref C (mkRid KTotal 0) w) as [y w'] eqn:D. apply ko_dref in D. pose proof (only_trans _ _ _ _ E D). destruct y; intros [= _ <-]; assumption.
Qed.
End Only.

(** ** What pack() has assigned when it raises *)
Section Assigned.
Variable C : cls.
Hypothesis Hplain : plain C.
Hypothesis Hnames : NoDup (map f_name (k_fields C)).
Hypothesis Hquiet : quiet_before C.
Variable o : attrs.

Definition fine (s : bst) : Prop :=
  same_but_assigned C o (s_obj s)
  /\ forall f, In f (k_fields C) -> Marshal.lookup (s_obj s) (f_name f) = Marshal.lookup o (f_name f)
       \/ exists v, Marshal.lookup (s_obj s) (f_name f) = Some v /\ computed_for C o f v.

Lemma fine_set f s x : In f (k_fields C) -> f_before f <> None -> computed_for C o f x -> fine s -> fine (mkBst (set_attr (s_obj s) (f_name f) x) (s_input s)).
Proof.
  intros Hin Hb Hc (F1 & F2). split; cbn [s_obj]; [now apply assigned_same|]. intros g Hg. destruct (String.eqb_spec (f_name f) (f_name g)) as [E|E].
  - right. exists x. rewrite <- E. split; [apply lookup_set_same|]. assert (f = g) as <-; [|exact Hc].
    apply In_nth_error in Hin. apply In_nth_error in Hg. destruct Hin as (i & Hi). destruct Hg as (j & Hj). destruct (Nat.eq_dec j i) as [->|N]; [congruence|].
    exfalso. exact (name_of C Hnames i f Hi j g Hj N (eq_sym E)).
  - rewrite lookup_set_other by exact E. auto.
Qed.

Lemma deref_fine n : forall r c s x c' s', deref rid_eqb (nodes C) n r c s = Some (x, c', s') -> writing r -> good C o (c_cache c) s -> fine s -> fine s'.
Proof.
  induction n as [|n IH]; intros r c s x c' s' H Hr G F; [discriminate|]. cbn [deref] in H.
  destruct (mem rid_eqb r (c_nodes c)); [inversion H; subst; exact F|].
  destruct (RefEngine.lookup rid_eqb r (c_cache c)); [inversion H; subst; exact F|].
  destruct (run (deref rid_eqb (nodes C) n) (nodes C r) (push r c) s) as [[[o1 c1] s1]|] eqn:E; [|discriminate].
  assert (T : fine s1); [|destruct o1; inversion H; subst; exact T]. clear H.
  change (c_cache c) with (c_cache (push r c)) in G. revert E G. generalize (push r c). intros c0 E G.
  assert (Q : forall p, gentle p -> forall c s x c' s', run (deref rid_eqb (nodes C) n) p c s = Some (x, c', s') -> good C o (c_cache c) s -> fine s -> fine s').
  { clear - IH Hplain Hnames Hquiet. induction p as [v|e|r k IHk|f k IHk]; intros Hg c s x c' s' H G F; cbn [run] in H; try (inversion H; subst; exact F).
    - inversion Hg as [| |? ? Hr Hk|]; subst. destruct (deref rid_eqb (nodes C) n r c s) as [[[[v|e|q] c1] s1]|] eqn:E; try discriminate; pose proof (IH _ _ _ _ _ _ E Hr G F) as T; try (inversion H; subst; exact T).
      eapply IHk; eauto. eapply deref_good; eauto.
    - inversion Hg as [| | |? ? Hf]; subst. destruct (f s) as [[v|e] s1] eqn:E; destruct (Hf _ _ _ (proj1 G) E) as (-> & Hk); [eapply IHk; eauto|inversion H; subst; exact F]. }
  destruct (kind_eq_dec (r_kind r) KPackValue) as [Ek|Ek]; [|eapply Q; eauto; apply node_gentle; auto].
  destruct r as [k i]. cbn [r_kind] in Ek. subst k.
  change (nodes C (mkRid KPackValue i)) with (match nth_error (k_fields C) i with Some f => field_node KPackValue i f | None => PRaise NotModelled end) in E.
  destruct (nth_error (k_fields C) i) as [f|] eqn:Hf; [|inversion E; subst; exact F]. cbn [field_node] in E.
  pose proof (nth_error_In _ _ Hf) as Hin. pose proof (field_plain C Hplain _ _ Hf) as P.
  assert (A : forall w c s, run (deref rid_eqb (nodes C) n) (assign (f_name f) w) c s = Some (o1, c1, s1) -> fine s -> f_before f <> None -> (forall y, w = RVal y -> computed_for C o f y) -> fine s1).
  { intros w c2 s2 R F2 Hb Hc. unfold assign in R. cbn [run] in R. destruct w; cbn [as_value] in R; inversion R; subst; try exact F2. apply fine_set; auto. }
  unfold pack_value in E. destruct (f_before f) as [[h|y|r']|] eqn:Hb; cbn [run get_attr] in E.
  - destruct (deref rid_eqb (nodes C) n (mkRid KBefore i) c0 s) as [[[[w|e|q] c2] s2]|] eqn:E2; try discriminate; pose proof (IH _ _ _ _ _ _ E2 I G F) as T; try (inversion E; subst; exact T).
    apply (A w c2 s2 E T); [congruence|]. intros y ->. pose proof (deref_good C Hplain Hnames Hquiet o _ _ _ _ _ _ _ E2 I G) as G2.
    pose proof (deref_value_cached rid_eqb rid_eqb_spec (nodes C) _ _ _ _ _ _ _ E2) as L.
    destruct (proj1 (proj2 (proj2 G2) i f Hf) _ L) as (v' & h' & a & [= <-] & Hb' & Ha & Hv). unfold computed_for. rewrite Hb'. eauto.
  - apply (A _ _ _ E F); [congruence|]. intros z [= <-]. unfold computed_for. now rewrite Hb.
  - assert (W' : writing r') by (destruct P as (_ & _ & _ & _ & P & _); rewrite Hb in P; now apply plain_writing).
    destruct (deref rid_eqb (nodes C) n r' c0 s) as [[[[w|e|q] c2] s2]|] eqn:E2; try discriminate; pose proof (IH _ _ _ _ _ _ E2 W' G F) as T; try (inversion E; subst; exact T).
    apply (A w c2 s2 E T); [congruence|]. intros y _. unfold computed_for. now rewrite Hb.
  - destruct (Marshal.lookup (s_obj s) (f_name f)); inversion E; subst; exact F.
Qed.

Definition wfine (w : world) : Prop := wgood C o w /\ fine (w_st w).
(** [m] keeps this up if it succeeds, and [fine] in any case. *)
Definition keeps_fine {A} (m : stM world A) : Prop := forall w x w', m w = (x, w') -> wfine w -> fine (w_st w') /\ (forall a, x = Ok a -> wfine w').
Lemma kf_dref r : writing r -> keeps_fine (dref C r).
Proof.
  intros Hr w x w' H (G & F). assert (T : fine (w_st w')).
  { unfold dref in H. destruct (deref rid_eqb (nodes C) (fuel C) r (w_ctx w) (w_st w)) as [[[q c] s]|] eqn:E; [|inversion H; subst; exact F].
    pose proof (deref_fine _ _ _ _ _ _ _ E Hr G F) as T. destruct q; inversion H; subst; exact T. }
  split; [exact T|]. intros a ->. split; [|exact T]. eapply dref_good; eauto.
Qed.
Lemma kf_bind {A B} (m : stM world A) (k : A -> stM world B) : keeps_fine m -> (forall a, keeps_fine (k a)) -> keeps_fine (sbind m k).
Proof.
  intros Hm Hk w x w'. unfold sbind. destruct (m w) as [[a|e] w1] eqn:E; intros H F.
  - destruct (Hm _ _ _ E F) as (_ & T). exact (Hk _ _ _ _ H (T a eq_refl)).
  - injection H as <- <-. split; [exact (proj1 (Hm _ _ _ E F))|]. intros a [=].
Qed.
Lemma kf_wrap {A} (m : stM world A) : keeps_fine m -> keeps_fine (wrap m).
Proof.
  intros Hm w x w'. unfold wrap. destruct (m w) as [[a|e] w1] eqn:E; intros [= <- <-] F; [exact (Hm _ _ _ E F)|]. split; [exact (proj1 (Hm _ _ _ E F))|]. intros a [=].
Qed.
Lemma kf_ret {A} (a : A) : keeps_fine (sret a).
Proof. intros w x w' [= <- <-] F. split; [apply F|]. intros b _. exact F. Qed.
Lemma kf_lift {A} (a : res A) : keeps_fine (slift a).
Proof. intros w x w' [= <- <-] F. split; [apply F|]. intros b _. exact F. Qed.
Lemma kf_foreach {A} (l : list A) (f : A -> stM world unit) : (forall a, In a l -> keeps_fine (f a)) -> keeps_fine (sforeach l f).
Proof.
  induction l as [|a l IH]; intros H; cbn [sforeach]; [apply kf_ret|]. apply kf_bind; [apply H; now left|]. intros _. apply IH. intros b Hb. apply H. now right.
Qed.
Lemma kf_pack i f : In (i, f) (numbered C) -> keeps_fine (pack_field C i f).
Proof.
  intros Hin. apply numbered_in in Hin. pose proof (field_plain C Hplain _ _ Hin) as P.
  unfold pack_field. apply kf_bind; [apply kf_dref; apply plain_writing, P|]. intros c. destruct (truthy c); [|apply kf_ret]. apply kf_wrap.
  apply kf_bind; [apply kf_dref; exact I|]. intros. apply kf_bind; [apply kf_dref; exact I|]. intros. apply kf_bind; [apply kf_lift|]. intros. apply kf_bind; [apply kf_lift|]. intros.
  intros w x w'. unfold out_set. destruct (output_set _ _ _) as [[]]; intros [= <- <-] F; (split; [apply F|]); intros ? _; exact F.
Qed.
Lemma pack_computed r o' : buffer_pack C o = (r, o') ->
  same_but_assigned C o o'
  /\ forall f, In f (k_fields C) -> Marshal.lookup o' (f_name f) = Marshal.lookup o (f_name f)
       \/ exists v, Marshal.lookup o' (f_name f) = Some v /\ computed_for C o f v.
Proof.
  unfold buffer_pack. destruct (sforeach (numbered C) (fun p => pack_field C (fst p) (snd p)) (start_pack o)) as [y w] eqn:E.
  assert (K : keeps_fine (sforeach (numbered C) (fun p => pack_field C (fst p) (snd p)))) by (apply kf_foreach; intros [i f] Hin; now apply kf_pack).
  destruct (K _ _ _ E) as (F & _); [|destruct y; intros [= _ <-]; exact F].
  split; [split; [reflexivity|]; split; [intros n _; reflexivity|]; intros; repeat split; discriminate|].
  split; [intros n _; reflexivity|]. intros f _. now left.
Qed.
End Assigned.

(** ** unpack() up to the first field that cannot be read *)
Section Failing.
Variable C : cls.
Variable I : bst -> Prop.
Variable Post : rid -> bst -> Prop.
Definition fl (r : rid) (e : exn) : Prop := exists n, RefFail.fails (nodes C) I Post r e n.
Definition flp (p : bprog) (e : exn) : Prop := exists n, fail_prog (nodes C) I Post p e n.
Lemma fl_intro r e : flp (nodes C r) e -> fl r e.
Proof. intros (n & H). exists (S n). now constructor. Qed.
Lemma flp_ref r k v e : st C I Post r v -> flp (k v) e -> flp (PRef r k) e.
Proof. intros (n & H) (m & K). eexists. eapply fp_ref; eauto. Qed.
Lemma flp_inner r k e : fl r e -> flp (PRef r k) e.
Proof. intros (n & H). eexists. eapply fp_inner; eauto. Qed.
Lemma flp_read f k v e : (forall s, I s -> f s = (Ok v, s)) -> flp (k v) e -> flp (PCtx f k) e.
Proof. intros H (n & K). exists n. eapply fp_ctx; [|exact K]. intros s Hs. exists s. auto. Qed.
Lemma flp_stop f k e : (forall s, I s -> f s = (Err e, s)) -> flp (PCtx f k) e.
Proof. intros H. exists 0%nat. now constructor. Qed.
Lemma flp_ev_list l : forall vs k e, Forall2 (st_arg C I Post) l vs -> flp (k vs) e -> flp (ev_list l k) e.
Proof.
  induction l as [|a l IH]; intros vs k e F K; inversion F as [|? v ? vs' Ha F']; subst; cbn [ev_list]; [exact K|].
  destruct a as [x|r]; cbn [ev st_arg] in *; [subst; eapply IH; eauto|]. eapply flp_ref; [exact Ha|]. eapply IH; eauto.
Qed.

Lemma dref_fails r e w : cls_ok C -> rid_in C r -> fl r e -> steady_world C I Post w ->
  exists w', dref C r w = (Err e, w') /\ steady_world C I Post w' /\ (forall x, Post x (w_st w) -> Post x (w_st w')).
Proof.
  intros Hok Hr (n & H) (W1 & W2 & W3). unfold dref. pose proof (deref_ends C Hok r (w_ctx w) (w_st w) Hr W1) as T.
  destruct (deref rid_eqb (nodes C) (fuel C) r (w_ctx w) (w_st w)) as [[[o c'] s']|] eqn:E; [|congruence].
  destruct (deref_fails rid_eqb rid_eqb_spec (nodes C) I Post (fuel C) r e n H _ _ _ _ _ E W2 W3) as (-> & E2 & E3 & E5).
  { rewrite W1. intros x []. }
  pose proof (deref_kept rid_eqb rid_eqb_spec (nodes C) _ _ _ _ _ _ _ E) as (K & _).
  eexists. split; [reflexivity|]. cbn [w_ctx w_st w_out]. split; [split; [cbn [w_ctx]; congruence|split; assumption]|assumption].
Qed.
End Failing.

Section Stops.
Variable C : cls.
Hypothesis Hok : cls_ok C.
Hypothesis Hnames : NoDup (map f_name (k_fields C)).
Variables (b input : buf).
Hypothesis Kv : buf_ok input.
Hypothesis Vv : is_view input.
Hypothesis Bv : buf_bits input = buf_bits b.
Variable i : nat.
Variable lay : list (list srange * value).
Hypothesis Hlay : Forall2 (fun f x => always_at C f (fst x) /\ decodes C b f (fst x) (snd x)) (firstn i (k_fields C)) lay.
Hypothesis Hafter : after_in_front C i.
Variable o : attrs.
Definition rest_same (s : bst) : Prop :=
  s_input s = Some input /\ forall n, ~ In n (map f_name (firstn i (k_fields C))) -> Marshal.lookup (s_obj s) n = Marshal.lookup o n.
Let Post := attr_post C (fixed_value lay).

Lemma in_front j f : nth_error (k_fields C) j = Some f -> (j < i)%nat -> nth_error (firstn i (k_fields C)) j = Some f.
Proof.
  clear. revert j. generalize (k_fields C). induction i as [|k IH]; intros l j H L; [lia|]. destruct l as [|x l]; [destruct j; discriminate|].
  destruct j as [|j]; cbn [firstn nth_error] in *; [exact H|]. apply IH; [exact H|lia].
Qed.
Lemma stops_static r v : static (nodes C) r v -> st C rest_same Post r v.
Proof. intros H. apply static_st; [|exact H]. intros r' v' H' s _. eapply attr_post_static; eauto. Qed.
Lemma stops_args l vs : Forall2 (static_arg C) l vs -> Forall2 (st_arg C rest_same Post) l vs.
Proof. intros H. apply static_st_args; [|exact H]. intros r' v' H' s _. eapply attr_post_static; eauto. Qed.
Lemma stops_other j : forall k s, k <> KUnpackValue -> k <> KPackValue -> k <> KPack -> Post (mkRid k j) s.
Proof. intros k s K _ _. now apply attr_post_other. Qed.
Lemma stops_place j f r : nth_error (k_fields C) j = Some f -> always_at C f r -> st C rest_same Post (mkRid KUnpackPos j) (RRanges r).
Proof.
  intros Hf (S1 & S2 & _). destruct (proper_facts r S2) as (P1 & P2).
  apply (st_unpack_pos_closed C rest_same Post j f Hf (stops_other j)); auto. now apply stops_static.
Qed.
Lemma stops_value j f : nth_error (k_fields C) j = Some f -> (j < i)%nat -> st C rest_same Post (mkRid KUnpackValue j) (RVal (fixed_value lay j)).
Proof.
  intros Hf Hj. pose proof Hlay as Hl. apply Forall2_nth_iff in Hl. destruct Hl as (L & Hl). pose proof (in_front j f Hf Hj) as Hf'.
  destruct (nth_error lay j) as [[r v]|] eqn:El.
  2:{ apply nth_error_None in El. assert (nth_error (firstn i (k_fields C)) j <> None) as Q by congruence. apply nth_error_Some in Q. lia. }
  destruct (Hl j f (r, v) Hf' El) as (A & args & used & U1 & U2). cbn [fst snd] in *. pose proof A as (_ & S2 & _ & S4).
  destruct (input_get_view input r Kv Vv (proj1 (Forall_closed _) (proj1 S2))) as (g & Q1 & Q2 & Q3 & Q4).
  assert (K : st C rest_same Post (mkRid KUnpack j) (RPair v used)).
  { apply (st_unpack C rest_same Post j f Hf (stops_other j) input (fun s H => proj1 H) r g args
           (match f_size f with Some x => rnum x | None => rsize (list_byte_length r) end) (given_size f r)); auto.
    - now apply (stops_place j f).
    - destruct (f_size f); reflexivity.
    - apply (given_size_st f r). destruct (f_size f); reflexivity.
    - now apply stops_args.
    - intros s _. apply U2. split; [exact Q2|]. split; [exact Q3|]. unfold bits_at. now rewrite <- Bv. }
  unfold fixed_value at 1. rewrite El. cbn [snd]. apply (st_unpack_value C rest_same Post j f Hf (stops_other j) v used S4 K).
  intros s (Hs1 & Hs2) s'. split.
  - split; [exact Hs1|]. intros n Hn. unfold s'. cbn [s_obj]. rewrite lookup_set_other; [auto|]. intros <-. apply Hn. apply in_map. eapply nth_error_In; eauto.
  - pose proof (attr_post_set C (fixed_value lay) j f s Hnames Hf) as P. unfold fixed_value in P at 1 2. rewrite El in P. exact P.
Qed.
Lemma stops_after j f : nth_error (k_fields C) j = Some f -> (j <= i)%nat ->
  Forall (field_no C) (f_unpack_after f) -> Forall (fun k => exists v, st C rest_same Post (mkRid KUnpackValue k) v) (f_unpack_after f).
Proof.
  intros Hf Hj Fn. pose proof (Hafter j f Hj Hf) as Fa. apply Forall_forall. intros k Hk.
  pose proof (proj1 (Forall_forall _ _) Fn k Hk) as Nk. pose proof (proj1 (Forall_forall _ _) Fa k Hk) as Lk. cbv beta in Lk. unfold field_no in Nk.
  destruct (nth_error (k_fields C) k) as [g|] eqn:Eg; [|apply nth_error_None in Eg; lia]. eexists. eapply stops_value; eauto.
Qed.
Lemma stops_unpacks j f : nth_error (k_fields C) j = Some f -> (j < i)%nat -> field_unpacks C rest_same Post j f.
Proof.
  intros Hf Hj. pose proof Hlay as Hl. apply Forall2_nth_iff in Hl. destruct Hl as (L & Hl). pose proof (in_front j f Hf Hj) as Hf'.
  destruct (nth_error lay j) as [x|] eqn:El.
  2:{ apply nth_error_None in El. assert (nth_error (firstn i (k_fields C)) j <> None) as Q by congruence. apply nth_error_Some in Q. lia. }
  destruct (Hl j f x Hf' El) as ((_ & _ & (c & S3 & T) & _) & _). exists c. split; [now apply stops_static|]. rewrite T.
  pose proof (proj1 (Forall_forall _ _) (proj2 Hok) _ (nth_error_In _ _ Hf)) as (F1 & F2 & F3 & F4 & F5 & F6 & _).
  split; [apply (stops_after j f); auto; lia|]. eexists. eapply stops_value; eauto.
Qed.
Lemma stops_here f r e : nth_error (k_fields C) i = Some f -> always_at C f r -> rejects C b f r e -> fl C rest_same Post (mkRid KUnpackValue i) e.
Proof.
  intros Hf A (args & U1 & U2). pose proof A as (_ & S2 & _ & S4).
  destruct (input_get_view input r Kv Vv (proj1 (Forall_closed _) (proj1 S2))) as (g & Q1 & Q2 & Q3 & Q4).
  pose proof (stops_place i f r Hf A) as P.
  assert (K : fl C rest_same Post (mkRid KUnpack i) e).
  { apply fl_intro. rewrite (node_eq C i f Hf KUnpack eq_refl). cbn [field_node]. unfold unpack_ref.
    eapply flp_ref; [apply (st_part C rest_same Post i f Hf (stops_other i) input (fun s H => proj1 H) r g P Q1)|].
    assert (G : forall z, opt_num_bits z = Ok (given_size f r) -> flp C rest_same Post (ev_list (f_unpack_args f) (fun args =>
        PCtx (fun s => (let* b := as_buf (RBuf g) in let* n := opt_num_bits z in
                        let* p := f_unpack f args (s_obj s) b n in Ok (RPair (fst p) (snd p)), s)) PRet)) e).
    { intros z Hz. eapply flp_ev_list; [apply stops_args; exact U1|]. apply flp_stop. intros s _. cbn [as_buf rbind]. rewrite Hz. cbn [rbind].
      rewrite U2; [reflexivity|]. split; [exact Q2|]. split; [exact Q3|]. unfold bits_at. now rewrite <- Bv. }
    assert (Gs : opt_num_bits (match f_size f with Some x => rnum x | None => rsize (list_byte_length r) end) = Ok (given_size f r)).
    { apply (given_size_st f r). destruct (f_size f); reflexivity. }
    unfold with_size. destruct (f_size f) as [z|]; [now apply G|].
    eapply flp_ref; [apply (st_unpack_len C rest_same Post i f Hf (stops_other i) r P)|]. now apply G. }
  apply fl_intro. rewrite (node_eq C i f Hf KUnpackValue eq_refl). cbn [field_node]. unfold unpack_value. rewrite S4.
  eapply flp_read; [reflexivity|]. apply flp_inner. apply fl_intro. rewrite (node_eq C i f Hf KFieldUnpack eq_refl). cbn [field_node]. unfold field_unpack.
  now apply flp_inner.
Qed.
End Stops.

Lemma sforeach_stop {A} (f : A -> stM world unit) l1 : forall x l2 w w1 e w2, sforeach l1 f w = (Ok tt, w1) -> f x w1 = (Err e, w2) ->
  sforeach (l1 ++ x :: l2) f w = (Err e, w2).
Proof.
  induction l1 as [|a l1 IH]; intros x l2 w w1 e w2 H1 H2; cbn [sforeach app] in *.
  - injection H1 as ->. unfold sbind. now rewrite H2.
  - unfold sbind in *. destruct (f a w) as [[[]|]] eqn:E; [|discriminate]. eapply IH; eauto.
Qed.

Theorem unpack_stops C b o i f r e lay : cls_ok C -> NoDup (map f_name (k_fields C)) -> buf_ok b -> after_in_front C i ->
  Forall2 (fun f x => always_at C f (fst x) /\ decodes C b f (fst x) (snd x)) (firstn i (k_fields C)) lay ->
  nth_error (k_fields C) i = Some f -> always_at C f r -> rejects C b f r e ->
  exists o', buffer_unpack C b o = (Err (wrapped e), o') /\ has_values o' (firstn i (k_fields C)) lay
    /\ forall n, ~ In n (map f_name (firstn i (k_fields C))) -> Marshal.lookup o' n = Marshal.lookup o n.
Proof.
  intros Hok Hn Kb Ha Hl Hf A R. destruct (input_buffer_spec b Kb) as (v & V1 & _). destruct (input_buffer_same b v Kb V1) as (Kv & Vv & Bv).
  set (J := rest_same C v i o). set (Post := attr_post C (fixed_value lay)).
  assert (Ni : nth_error (numbered C) i = Some (i, f)) by (now apply numbered_nth).
  destruct (nth_error_split _ _ Ni) as (l1 & l2 & El & Ll).
  assert (F1 : forall j g, In (j, g) l1 -> nth_error (k_fields C) j = Some g /\ (j < i)%nat).
  { intros j g H. assert (Hin : In (j, g) (numbered C)) by (rewrite El; apply in_or_app; now left). pose proof (proj1 (numbered_in C j g) Hin) as Hj. split; [exact Hj|].
    apply In_nth_error in H. destruct H as (k & Hk). assert (Lk : (k < List.length l1)%nat) by (apply nth_error_Some; congruence).
    assert (Hk' : nth_error (numbered C) k = Some (j, g)) by (rewrite El, nth_error_app1 by exact Lk; exact Hk).
    assert (k = j); [|lia]. pose proof (numbered_nth C j g Hj) as Hj'.
    assert (N : NoDup (map fst (numbered C))) by (unfold numbered; rewrite map_fst_combine by (rewrite seq_length; lia); apply seq_NoDup).
    apply (proj1 (NoDup_nth_error (map fst (numbered C)))  N); [rewrite map_length; apply nth_error_Some; congruence|]. now rewrite !nth_error_map, Hk', Hj'. }
  assert (W0 : steady_world C J Post (mkW new_ctx (mkBst o (Some v)) (new_baa []))) by (apply steady_start; split; [reflexivity|auto]).
  destruct (unpack_fields_steady C J Post l1 (mkW new_ctx (mkBst o (Some v)) (new_baa [])) Hok) as (w1 & E1 & W1 & _ & P1); [intros x Hx; rewrite El; apply in_or_app; now left| |exact W0|].
  { intros j g H. destruct (F1 j g H). now apply (stops_unpacks C Hok Hn b v Kv Vv Bv i lay Hl Ha o). }
  assert (Hin : In (i, f) (numbered C)) by (eapply nth_error_In; eauto).
  pose proof (proj1 (Forall_forall _ _) (proj2 Hok) _ (nth_error_In _ _ Hf)) as (G1 & G2 & G3 & G4 & G5 & G6 & _).
  pose proof A as (_ & _ & (c & S3 & T) & _).
  destruct (dref_steady C J Post _ c w1 Hok G4 (stops_static C v i lay o _ _ S3) W1) as (w2 & D2 & W2 & _ & _ & M2).
  destruct (unpack_after_steady C J Post _ w2 Hok G6 (stops_after C Hn b v Kv Vv Bv i lay Hl Ha o i f Hf (le_n _) G6) W2) as (w3 & E3 & W3 & _ & M3).
  destruct (dref_fails C J Post _ e w3 Hok (in_field C KUnpackValue i eq_refl (numbered_no C _ _ Hin)) (stops_here C b v Kv Vv Bv i lay o f r e Hf A R) W3) as (w4 & D4 & W4 & M4).
  exists (s_obj (w_st w4)). split.
  - unfold buffer_unpack. rewrite V1. rewrite El. rewrite (sforeach_stop _ l1 (i, f) l2 _ w1 (wrapped e) w4 E1); [reflexivity|]. cbn [fst snd].
    unfold unpack_field, wrap. unfold sbind at 1. rewrite D2, T. unfold sbind at 1. rewrite E3. unfold sbind at 1. now rewrite D4.
  - split; [|apply W4]. apply Forall2_nth_iff. apply Forall2_nth_iff in Hl. destruct Hl as (L & _). split; [exact L|]. intros j g x Hg Hx.
    assert (Lj : (j < i)%nat). { assert (nth_error (firstn i (k_fields C)) j <> None) as Q by congruence. apply nth_error_Some in Q. rewrite firstn_length in Q. lia. }
    assert (Hg' : nth_error (k_fields C) j = Some g). { rewrite <- (firstn_skipn i (k_fields C)). rewrite nth_error_app1; [exact Hg|]. apply nth_error_Some. congruence. }
    assert (Hj : In (j, g) l1).
    { pose proof (numbered_nth C j g Hg') as Nj. rewrite El, nth_error_app1 in Nj by lia. eapply nth_error_In; eauto. }
    assert (P : Post (mkRid KUnpackValue j) (w_st w4)) by (apply M4, M3, M2; eapply P1; exact Hj).
    specialize (P g Hg'). cbn [r_no] in P. unfold fixed_value in P. now rewrite Hx in P.
Qed.

Lemma int_rejects C l h e signed s k a : bytes_ok l -> 0 <= a -> zlen l < a + width_in_bytes s ->
  rejects C (BArr l) (int_field h e signed None k) (byte_place a (a + width_in_bytes s)) AssertionError.
Proof.
  intros B Ha Hl. pose proof (width_pos s) as Ws. exists []. split; [constructor|]. intros a' g (K & V & E).
  assert (Gs : given_size (int_field h e signed None k) (byte_place a (a + width_in_bytes s)) = Some (8 * width_in_bytes s)).
  { unfold given_size, int_field, build, size_keyword. cbn [f_size]. rewrite byte_place_length by lia. f_equal. lia. }
  rewrite Gs. change (unpack_int h signed e (Some (8 * width_in_bytes s)) g = Err AssertionError). apply int_field_short.
  rewrite bits_at_bytes in E by lia. pose proof (py_slice_len l a (a + width_in_bytes s) Ha ltac:(lia)) as Q. pose proof (zlen_nonneg l) as L0.
  rewrite blen_cdiv, <- buf_bits_len, E, bits_of_bytes_length by exact K. unfold cdiv8. lia.
Qed.

Lemma unpack_again C b b2 o r o1 n lay : functions_assign_fields C -> cls_ok C -> NoDup (map f_name (k_fields C)) -> buf_ok b2 -> k_size C = Some n ->
  buffer_unpack C b o = (r, o1) ->
  Forall2 (fun f x => always_at C f (fst x) /\ decodes C b2 f (fst x) (snd x)) (k_fields C) lay ->
  exists o2, buffer_unpack C b2 o1 = (Ok n, o2) /\ has_values o2 (k_fields C) lay /\ only_fields_changed C o o2.
Proof.
  intros Hfun Hok Hn Kb Hs H Hl. destruct (unpack_fixed C b2 o1 n lay Hok Hn Kb Hs Hl) as (o2 & E1 & E2 & E3). exists o2. split; [exact E1|]. split; [exact E2|].
  eapply only_trans; [|exact E3]. eapply unpack_only; eauto.
Qed.

Lemma int_decodes C l h e signed s k a : bytes_ok l -> struct_width e s -> 0 <= a -> a + width_in_bytes s <= zlen l ->
  exists z, decodes C (BArr l) (int_field h e signed None k) (byte_place a (a + width_in_bytes s)) (VInt z)
    /\ int_fits signed (8 * width_in_bytes s) z
    /\ forall j, 0 <= j < width_in_bytes s -> int_byte h e (width_in_bytes s) z j (nth (Z.to_nat (a + j)) l 0).
Proof.
  intros B W Ha Hl. pose proof (width_pos s) as Ws. set (q := py_slice l a (a + width_in_bytes s)).
  assert (Bq : bytes_ok q) by (apply slice_ok, B). assert (Lq : zlen q = width_in_bytes s) by (unfold q; rewrite py_slice_len by lia; lia).
  destruct (input_buffer_spec (BArr q) Bq) as (g0 & V1 & _). destruct (input_buffer_same (BArr q) g0 Bq V1) as (K0 & V0 & B0).
  assert (Bl : blen g0 = zlen q). { rewrite blen_cdiv, <- buf_bits_len, B0 by exact K0. change (buf_bits (BArr q)) with (bits_of_bytes q). rewrite bits_of_bytes_length. unfold cdiv8. lia. }
  destruct (int_field_decodes h signed e s g0 W K0 V0) as (z & Z1 & Z2 & Z3); [lia|].
  destruct (int_field_roundtrip h signed e s z W Z2) as (p & P1 & P2 & P3 & P4 & P5).
  assert (Eq : p = q).
  { assert (p = firstn (Z.to_nat (width_in_bytes s)) (bytes_of_bits (buf_bits g0))) as -> by congruence. rewrite B0. change (buf_bits (BArr q)) with (bits_of_bytes q).
    rewrite bytes_of_bits_of_bytes by exact Bq. apply firstn_all2. unfold zlen in *. lia. }
  subst p. exists z. split; [|split; [exact Z2|]].
  - exists [], (Some (8 * width_in_bytes s)). split; [constructor|]. intros a' g (K & V & E).
    assert (Gs : given_size (int_field h e signed None k) (byte_place a (a + width_in_bytes s)) = Some (8 * width_in_bytes s)).
    { unfold given_size, int_field, build, size_keyword. cbn [f_size]. rewrite byte_place_length by lia. f_equal. lia. }
    rewrite Gs. change (unpack_int h signed e (Some (8 * width_in_bytes s)) g = Ok (VInt z, Some (8 * width_in_bytes s))).
    apply (P5 g []). rewrite app_nil_r. split; [exact K|]. split; [exact V|]. rewrite E. now apply bits_at_bytes; lia.
  - intros j Hj. specialize (P4 j Hj). unfold q in P4. now rewrite py_slice_nth in P4 by lia.
Qed.

(** ** Packing stops *)
Lemma flp_raise C I Post e : flp C I Post (PRaise e) e.
Proof. exists 0%nat. constructor. Qed.

Section Packs.
Variable C : cls.
Hypothesis Hok : cls_ok C.
Hypothesis Hnames : NoDup (map f_name (k_fields C)).
Variable o : attrs.
Variable vals : list value.
Hypothesis Hvals : forall j f v, nth_error (k_fields C) j = Some f -> nth_error vals j = Some v -> value_used C o f v.
Definition set_to j f v := nth_error (k_fields C) j = Some f /\ f_before f <> None /\ nth_error vals j = Some v.
Definition packs_inv (s : bst) : Prop := s_input s = None /\ forall m, Marshal.lookup (s_obj s) m = Marshal.lookup o m
  \/ exists j f v, set_to j f v /\ f_name f = m /\ Marshal.lookup (s_obj s) m = Some v.
Definition packs_post (r : rid) (s : bst) : Prop :=
  match r_kind r with
  | KPackValue | KPack => forall f v, set_to (r_no r) f v -> Marshal.lookup (s_obj s) (f_name f) = Some v
  | _ => True
  end.
Local Notation pst := (st C packs_inv packs_post).
Lemma packs_other j : forall k s, k <> KUnpackValue -> k <> KPackValue -> k <> KPack -> packs_post (mkRid k j) s.
Proof. intros k s _ H2 H3. unfold packs_post. cbn [r_kind]. destruct k; try exact Logic.I; congruence. Qed.
Lemma packs_static r v : static (nodes C) r v -> pst r v.
Proof.
  intros H. apply static_st; [|exact H]. intros [k j] v' H' s _. destruct k; try exact Logic.I; exfalso; [eapply static_pack_value|eapply given_pack, (static_given C (fun _ => False))]; eauto.
Qed.
Lemma packs_args l vs : Forall2 (static_arg C) l vs -> Forall2 (st_arg C packs_inv packs_post) l vs.
Proof.
  intros H. induction H as [|a v l vs Ha H IH]; constructor; [|exact IH]. destruct a; cbn [static_arg st_arg] in *; [exact Ha|now apply packs_static].
Qed.
Lemma packs_set j f v : set_to j f v -> forall s, packs_inv s -> let s' := mkBst (set_attr (s_obj s) (f_name f) v) (s_input s) in
  packs_inv s' /\ packs_post (mkRid KPackValue j) s' /\ forall r, packs_post r s -> packs_post r s'.
Proof.
  intros Hh s (I1 & I2) s'. pose proof Hh as (H1 & H2 & H3). split; [|split].
  - split; [exact I1|]. intros m. cbn [s' s_obj]. destruct (string_dec (f_name f) m) as [<-|E].
    + right. exists j, f, v. split; [exact Hh|]. split; [reflexivity|]. apply lookup_set_same.
    + rewrite lookup_set_other by auto. apply I2.
  - intros g e' (G1 & G2 & G3). cbn [r_no] in *. replace g with f by congruence. replace e' with v by congruence. apply lookup_set_same.
  - intros [k q] Hr. destruct k; try exact Logic.I; intros g e' Hg; cbn [r_no s' s_obj] in *;
      (destruct (string_dec (f_name f) (f_name g)) as [E|E];
        [destruct (same_field C Hnames j q f g H1 (proj1 Hg) E) as (-> & ->); rewrite lookup_set_same; destruct Hg as (_ & _ & Hg); congruence
        |rewrite lookup_set_other by auto; exact (Hr g e' Hg)]).
Qed.
Lemma packs_same s : packs_inv s -> same_but_assigned C o (s_obj s).
Proof.
  intros (_ & H) m Hm. destruct (H m) as [E|(i & f & e & (H1 & H2 & _) & H4 & _)]; [exact E|].
  exfalso. apply Hm. exists f. split; [eapply nth_error_In; eauto|]. auto.
Qed.
Lemma packs_plain j f s : nth_error (k_fields C) j = Some f -> f_before f = None -> packs_inv s -> Marshal.lookup (s_obj s) (f_name f) = Marshal.lookup o (f_name f).
Proof.
  intros Hf Eb (_ & Hs). destruct (Hs (f_name f)) as [E|(q & g & x & (G1 & G2 & G3) & G4 & _)]; [exact E|].
  destruct (same_field C Hnames q j g f G1 Hf G4) as (-> & ->). congruence.
Qed.
Lemma packs_value j f v : nth_error (k_fields C) j = Some f -> nth_error vals j = Some v -> pst (mkRid KPackValue j) (RVal v).
Proof.
  intros Hf Hv. pose proof (Hvals j f v Hf Hv) as L. unfold value_used in L. destruct (f_before f) as [h|] eqn:Eb.
  - apply (st_pack_value_hook C packs_inv packs_post j f Hf (packs_other j) v h Eb).
    + apply packs_set. split; [exact Hf|]. split; [congruence|exact Hv].
    + destruct h as [g|x|r]; [|congruence|now apply packs_static]. intros s Hs. apply L. now apply packs_same.
  - apply (st_pack_value C packs_inv packs_post j f Hf); [|exact Eb|].
    + intros s _ g e' (G1 & G2 & _). cbn [r_no] in *. congruence.
    + intros s Hs. rewrite (packs_plain j f s Hf Eb Hs). exact L.
Qed.
Lemma packs_pos j f r : nth_error (k_fields C) j = Some f -> always_to C f r -> pst (mkRid KPackPos j) (RRanges r).
Proof.
  intros Hf (S1 & S2 & _). destruct (proper_facts r S2) as (P1 & P2).
  apply (st_pack_pos_closed C packs_inv packs_post j f Hf (packs_other j)); auto. now apply packs_static.
Qed.
Lemma packs_size j f r : nth_error (k_fields C) j = Some f -> always_to C f r -> f_size f = None -> pst (mkRid KPackLen j) (rsize (list_byte_length r)).
Proof.
  intros Hf (S1 & S2 & _) _. destruct (proper_facts r S2) as (P1 & P2).
  apply (st_pack_len_closed C packs_inv packs_post j f Hf (packs_other j)); auto. now apply packs_static.
Qed.
Lemma packs_bits j f r v b : nth_error (k_fields C) j = Some f -> nth_error vals j = Some v -> always_to C f r -> encodes C f r v (Ok b) -> pst (mkRid KPack j) (RBuf b).
Proof.
  intros Hf Hv A (args & E1 & E2).
  eapply (st_pack C packs_inv packs_post j f Hf v args (match f_size f with Some x => rnum x | None => rsize (list_byte_length r) end)); [|now apply (packs_value j f)| | |now apply packs_args|exact E2].
  - intros s _ H. exact H.
  - destruct (f_size f) eqn:E; [reflexivity|]. now apply (packs_size j f).
  - apply (given_size_st f r). destruct (f_size f); reflexivity.
Qed.
Lemma packs_not j f r e : nth_error (k_fields C) j = Some f -> always_to C f r ->
  f_before f = None /\ Marshal.lookup o (f_name f) = None /\ e = AttributeError \/ (exists v, nth_error vals j = Some v /\ encodes C f r v (Err e)) ->
  fl C packs_inv packs_post (mkRid KPack j) e.
Proof.
  intros Hf A H. apply fl_intro. rewrite (node_eq C j f Hf KPack eq_refl). cbn [field_node]. unfold pack_ref. destruct H as [(H1 & H2 & ->)|(v & H1 & args & E1 & E2)].
  - apply flp_inner. apply fl_intro. rewrite (node_eq C j f Hf KPackValue eq_refl). cbn [field_node]. unfold pack_value. rewrite H1. unfold get_attr.
    apply flp_stop. intros s Hs. now rewrite (packs_plain j f s Hf H1 Hs), H2.
  - eapply flp_ref; [apply (packs_value j f v Hf H1)|].
    assert (G : forall z, opt_num_bits z = Ok (given_size f r) -> flp C packs_inv packs_post (ev_list (f_pack_args f) (fun args =>
        ret (let* v := as_value (RVal v) in let* n := opt_num_bits z in let* b := f_pack f args v n in Ok (RBuf b)))) e).
    { intros z Hz. eapply flp_ev_list; [apply packs_args; exact E1|]. cbn [as_value rbind]. rewrite Hz. cbn [rbind]. rewrite E2. cbn [rbind ret]. apply flp_raise. }
    assert (Gs : opt_num_bits (match f_size f with Some x => rnum x | None => rsize (list_byte_length r) end) = Ok (given_size f r)).
    { apply (given_size_st f r). destruct (f_size f); reflexivity. }
    unfold with_size. destruct (f_size f) as [z|] eqn:Ez; [now apply G|].
    eapply flp_ref; [apply (packs_size j f r Hf A Ez)|]. now apply G.
Qed.
End Packs.

Lemma numbered_front C i f : nth_error (k_fields C) i = Some f -> exists l1 l2, numbered C = l1 ++ (i, f) :: l2
  /\ forall j g, In (j, g) l1 <-> nth_error (k_fields C) j = Some g /\ (j < i)%nat.
Proof.
  intros Hf. pose proof (numbered_nth C i f Hf) as Ni. destruct (nth_error_split _ _ Ni) as (l1 & l2 & El & Ll). exists l1, l2. split; [exact El|]. intros j g. split.
  - intros H. assert (Hin : In (j, g) (numbered C)) by (rewrite El; apply in_or_app; now left). pose proof (proj1 (numbered_in C j g) Hin) as Hj. split; [exact Hj|].
    apply In_nth_error in H. destruct H as (k & Hk). assert (Lk : (k < List.length l1)%nat) by (apply nth_error_Some; congruence).
    assert (Hk' : nth_error (numbered C) k = Some (j, g)) by (rewrite El, nth_error_app1 by exact Lk; exact Hk).
    assert (k = j); [|lia]. pose proof (numbered_nth C j g Hj) as Hj'.
    assert (N : NoDup (map fst (numbered C))) by (unfold numbered; rewrite map_fst_combine by (rewrite seq_length; lia); apply seq_NoDup).
    apply (proj1 (NoDup_nth_error (map fst (numbered C)))  N); [rewrite map_length; apply nth_error_Some; congruence|]. now rewrite !nth_error_map, Hk', Hj'.
  - intros (Hj & Lj). pose proof (numbered_nth C j g Hj) as Nj. rewrite El, nth_error_app1 in Nj by lia. eapply nth_error_In; eauto.
Qed.

Theorem pack_stops C o i f e lay : cls_ok C -> NoDup (map f_name (k_fields C)) ->
  Forall2 (can_pack C o) (firstn i (k_fields C)) lay -> nth_error (k_fields C) i = Some f -> cannot_pack C o f e ->
  exists o', buffer_pack C o = (Err (wrapped e), o') /\ has_values o' (firstn i (k_fields C)) lay
    /\ forall n, (forall g, In g (firstn (S i) (k_fields C)) -> f_before g <> None -> f_name g <> n) -> Marshal.lookup o' n = Marshal.lookup o n.
Proof.
  intros Hok Hn Hl Hf (r & A & H). pose proof (proj1 (Forall2_nth_iff _ _ _) Hl) as (L & Hl').
  assert (Li : (i < List.length (k_fields C))%nat) by (apply nth_error_Some; congruence).
  assert (Ll : List.length lay = i) by (rewrite <- L, firstn_length; lia).
  assert (Hown : exists own, (List.length own <= 1)%nat /\ (forall v, nth_error own 0 = Some v -> value_used C o f v) /\ (f_before f = None /\ Marshal.lookup o (f_name f) = None /\ e = AttributeError
     \/ exists v, nth_error (map snd lay ++ own) i = Some v /\ encodes C f r v (Err e))).
  { destruct H as [H|(v & H1 & H2)]; [exists []; split; [cbn; lia|]; split; [discriminate|now left]|]. exists [v]. split; [cbn; lia|]. split; [intros x Hx; now injection Hx as <-|].
    right. exists v. split; [|exact H2]. rewrite nth_error_app2 by (rewrite map_length; lia). rewrite map_length, Ll, Nat.sub_diag. reflexivity. }
  clear H. destruct Hown as (own & Lo & Vo & Hown). set (vals := map snd lay ++ own) in *.
  assert (Front : forall j g, nth_error (k_fields C) j = Some g -> (j < i)%nat -> exists x, nth_error lay j = Some x /\ nth_error vals j = Some (snd x) /\ can_pack C o g x).
  { intros j g Hj Lj. pose proof (in_front C i j g Hj Lj) as Hj'. destruct (nth_error lay j) as [x|] eqn:Ex; [|apply nth_error_None in Ex; lia].
    exists x. split; [reflexivity|]. split; [|exact (Hl' j g x Hj' Ex)]. unfold vals. rewrite nth_error_app1 by (rewrite map_length; lia). now rewrite nth_error_map, Ex. }
  assert (Hvals : forall j g v, nth_error (k_fields C) j = Some g -> nth_error vals j = Some v -> value_used C o g v).
  { intros j g v Hg Hv. assert (Lj : (j < i \/ j = i)%nat). { assert (nth_error vals j <> None) as Q by congruence. apply nth_error_Some in Q. unfold vals in Q. rewrite app_length, map_length in Q. lia. }
    destruct Lj as [Lj| ->].
    - destruct (Front j g Hg Lj) as (x & _ & X2 & _ & X3 & _). now replace v with (snd x) by congruence.
    - replace g with f by congruence. apply Vo. unfold vals in Hv. rewrite nth_error_app2 in Hv by (rewrite map_length; lia). now rewrite map_length, Ll, Nat.sub_diag in Hv. }
  set (J := packs_inv C o vals). set (Post := packs_post C vals).
  destruct (numbered_front C i f Hf) as (l1 & l2 & El & F1).
  assert (W0 : steady_world C J Post (start_pack o)) by (apply steady_start; split; [reflexivity|]; intros m; now left).
  assert (Hbs : exists bs, List.length bs = List.length lay /\ forall j g x b, nth_error (firstn i (k_fields C)) j = Some g -> nth_error lay j = Some x -> nth_error bs j = Some b ->
     encodes C g (fst x) (snd x) (Ok b) /\ buf_ok b /\ zlen (all_positions (fst x)) <= zlen (pad_to_byte (buf_bits b))).
  { clear - Hl. induction Hl as [|g x l lay (_ & _ & b & B) Hl IH]; [exists []; split; [reflexivity|]; intros j ? ? ? H; destruct j; discriminate H|].
    destruct IH as (bs & B1 & B2). exists (b :: bs). split; [cbn; lia|]. intros j g' x' b' G1 G2 G3. destruct j as [|j]; cbn [nth_error] in *; [|now apply (B2 j)].
    injection G1 as <-. injection G2 as <-. injection G3 as <-. exact B. }
  destruct Hbs as (bs & Lb & Hbs).
  set (parts := fun j => match nth_error lay j, nth_error bs j with Some x, Some b => Some (b, fst x) | _, _ => None end : part).
  assert (Hparts : forall j g, In (j, g) l1 -> exists b r, parts j = Some (b, r) /\ always_to C g r /\ st C J Post (mkRid KPack j) (RBuf b) /\ buf_ok b /\ part_fits (Some (b, r))).
  { intros j g Hj. apply F1 in Hj. destruct Hj as (Hg & Lj). destruct (Front j g Hg Lj) as (x & X1 & X2 & A' & _).
    destruct (nth_error bs j) as [b|] eqn:Eb; [|apply nth_error_None in Eb; lia]. destruct (Hbs j g x b (in_front C i j g Hg Lj) X1 Eb) as (B1 & B2 & B3).
    exists b, (fst x). split; [unfold parts; now rewrite X1, Eb|]. split; [exact A'|]. split; [|split; [exact B2|split; [apply A'|exact B3]]].
    now apply (packs_bits C Hn o vals Hvals j g (fst x) (snd x) b). }
  destruct (pack_fields_steady C J Post parts l1 (start_pack o) Hok) as (w1 & E1 & W1 & _ & _ & _ & P1); [intros x Hx; rewrite El; apply in_or_app; now left| |exact W0|exact out_ok_new|].
  { intros j g Hj. destruct (Hparts j g Hj) as (b & q & Ep & A' & K1 & K2 & K3). apply F1 in Hj. pose proof A' as (_ & _ & c & Sc & Tc).
    exists c. split; [now apply (packs_static C o vals)|]. rewrite Ep. split; [exact Tc|]. split; [exact K1|]. split; [now apply (packs_pos C o vals j g)|]. now split. }
  assert (Hin : In (i, f) (numbered C)) by (now apply numbered_in).
  pose proof (proj1 (Forall_forall _ _) (proj2 Hok) _ (nth_error_In _ _ Hf)) as (G1 & G2 & G3 & _).
  pose proof A as (_ & _ & c & Sc & Tc).
  destruct (dref_steady C J Post _ c w1 Hok G3 (packs_static C o vals _ _ Sc) W1) as (w2 & D2 & W2 & _ & _ & M2).
  destruct (dref_fails C J Post _ e w2 Hok (in_field C KPack i eq_refl (numbered_no C _ _ Hin)) (packs_not C Hn o vals Hvals i f r e Hf A Hown) W2) as (w4 & D4 & W4 & M4).
  exists (s_obj (w_st w4)). split; [|split].
  - unfold buffer_pack. rewrite El. rewrite (sforeach_stop _ l1 (i, f) l2 _ w1 (wrapped e) w4 E1); [reflexivity|]. cbn [fst snd].
    unfold pack_field, wrap. unfold sbind at 1. rewrite D2, Tc. unfold sbind at 1. now rewrite D4.
  - apply Forall2_nth_iff. split; [exact L|]. intros j g x Hg Hx.
    assert (Lj : (j < i)%nat) by (rewrite <- Ll; apply nth_error_Some; congruence).
    assert (Hg' : nth_error (k_fields C) j = Some g). { rewrite <- (firstn_skipn i (k_fields C)). rewrite nth_error_app1; [exact Hg|]. apply nth_error_Some. congruence. }
    destruct (Front j g Hg' Lj) as (x' & X1 & X2 & _ & X3 & _). replace x' with x in * by congruence.
    assert (Hj : In (j, g) l1) by (now apply F1). destruct (f_before g) as [h|] eqn:Eb.
    + destruct (Hparts j g Hj) as (b & q & Ep & _). assert (P : Post (mkRid KPack j) (w_st w4)) by (apply M4, M2; apply (P1 j g Hj); congruence).
      apply P. split; [exact Hg'|]. split; [congruence|exact X2].
    + destruct W4 as (_ & W4 & _). rewrite (packs_plain C Hn o vals j g _ Hg' Eb W4). unfold value_used in X3. now rewrite Eb in X3.
  - intros n Hno. destruct W4 as (_ & (_ & W4) & _). destruct (W4 n) as [E|(j & g & v & (S1 & S2 & S3) & S4 & _)]; [exact E|]. exfalso.
    apply (Hno g); [|exact S2|exact S4]. assert (Lj : (j < S i)%nat). { assert (nth_error vals j <> None) as Q by congruence. apply nth_error_Some in Q. unfold vals in Q. rewrite app_length, map_length in Q. lia. }
    eapply nth_error_In. exact (in_front C (S i) j g S1 Lj).
Qed.

(** Proofs: set_before_pack and set_after_unpack. *)
From Verif Require Import Base BaseProofs Marshal Range RangeSpec IoBuffer IoSpec IoProofs IoOutput FieldFacts RefEngine RefSpec RefProofs RefStatic
  BufferModel BufferSpec BufferPlace BufferFacts BufferPack BufferTrip BufferErrors BufferClass BufferConds.
From Coq Require Import ZArith List Bool String Lia ZifyBool ZifyNat.
Import ListNotations.
Open Scope list_scope.
Open Scope Z_scope.
Ltac Zify.zify_post_hook ::= Z.div_mod_to_equations.

Lemma evals_grow C l m s m' s' : evals_all C l m s m' s' ->
  forall r v, RefEngine.lookup rid_eqb r m = Some v -> RefEngine.lookup rid_eqb r m' = Some v.
Proof. intros H. induction H; eauto using eval_grows. Qed.
Lemma unpacking_grows C l m s m' s' : unpacking C l m s m' s' ->
  forall r v, RefEngine.lookup rid_eqb r m = Some v -> RefEngine.lookup rid_eqb r m' = Some v.
Proof. intros H. induction H; eauto using eval_grows, evals_grow. Qed.

(** ** Unpacking: a field with set_after_unpack is not assigned *)
Section After.
Variable C : cls.
Hypothesis Hplain : plain C.
Hypothesis Hnames : NoDup (map f_name (k_fields C)).
Variables (i0 : nat) (f0 : field) (g : value -> res value).
Hypothesis Hf0 : nth_error (k_fields C) i0 = Some f0.
Hypothesis Hafter : f_after f0 = Some g.
Let n0 := f_name f0.

Lemma node_quiet r : reading r -> harmless f0 True (nodes C r).
Proof.
  intros Hr. destruct (rid_eqb r (mkRid KUnpackValue i0)) eqn:E.
  - apply rid_eqb_spec in E. subst r. unfold nodes. cbn [r_kind r_no]. rewrite Hf0. cbn [field_node]. unfold unpack_value. rewrite Hafter.
    apply h_ref; [exact I|]. intros. apply h_res.
  - apply (node_harmless C Hplain Hnames i0 f0 Hf0); [exact Hr|]. intros _ ->. rewrite (proj2 (rid_eqb_spec _ _) eq_refl) in E. discriminate.
Qed.
Definition same_attr (s s' : bst) : Prop := s_input s' = s_input s /\ Marshal.lookup (s_obj s') n0 = Marshal.lookup (s_obj s) n0.
Lemma eval_quiet r m s x m' s' : eval rid_eqb (nodes C) r m s x m' s' -> forall b, s_input s = Some b -> reading r -> same_attr s s'.
Proof.
  intros H. induction H using eval_mut with (P0 := fun p m s x m' s' _ => forall b, s_input s = Some b -> harmless f0 True p -> same_attr s s');
    unfold same_attr in *.
  - auto.
  - intros b Hb Hr. eapply IHeval; [exact Hb|now apply node_quiet].
  - intros b Hb Hr. eapply IHeval; [exact Hb|now apply node_quiet].
  - auto.
  - auto.
  - intros b Hb Hh. inversion Hh; subst. destruct (IHeval b Hb) as (A1 & A2); [assumption|].
    destruct (IHeval0 b) as (B1 & B2); [congruence|auto|]. split; congruence.
  - intros b Hb Hh. inversion Hh; subst. eapply IHeval; eauto.
  - intros b Hb Hh. inversion Hh as [| | |? ? Hf]; subst. destruct (Hf _ _ _ _ Hb e) as (F1 & F2 & F3).
    destruct (IHeval b F1 (F3 _ eq_refl)) as (B1 & B2). specialize (F2 I). fold n0 in F2. split; congruence.
  - intros b Hb Hh. inversion Hh as [| | |? ? Hf]; subst. destruct (Hf _ _ _ _ Hb e0) as (F1 & F2 & F3). specialize (F2 I). split; [congruence|exact F2].
Qed.
Lemma evals_quiet l m s m' s' b : evals_all C l m s m' s' -> s_input s = Some b -> Forall reading l -> same_attr s s'.
Proof.
  intros H. revert b. induction H as [m s|r l m s v m1 s1 m' s' E H IH]; intros b Hb Hl; [split; auto|].
  inversion Hl; subst. destruct (eval_quiet _ _ _ _ _ _ E b Hb) as (A1 & A2); [assumption|].
  destruct (IH b) as (B1 & B2); [congruence|assumption|]. split; congruence.
Qed.
Lemma unpacking_quiet l : forall m s m' s' b, unpacking C l m s m' s' -> s_input s = Some b -> incl l (numbered C) -> NoDup (map fst l) ->
  s_input s' = Some b
  /\ (~ In i0 (map fst l) -> Marshal.lookup (s_obj s') n0 = Marshal.lookup (s_obj s) n0)
  /\ (In i0 (map fst l) -> exists c, RefEngine.lookup rid_eqb (f_unpack_if f0) m' = Some c
        /\ Marshal.lookup (s_obj s') n0 = if truthy c then Marshal.lookup (s_obj s) n0 else Some VNone).
Proof.
  intros m s m' s' b H. induction H as [m s|i f l m s c m1 s1 m' s' E T H IH|i f l m s c m1 s1 m2 s2 m' s' E T E2 H IH]; intros Hb Hl Hd.
  - split; [exact Hb|]. split; [auto|intros []].
  - pose proof (Hl (i, f) (or_introl eq_refl)) as Hif. apply numbered_in in Hif.
    destruct (eval_quiet _ _ _ _ _ _ E b Hb) as (Q1 & Q2); [apply plain_reading, (field_plain C Hplain _ _ Hif)|].
    cbn [map fst] in Hd. inversion Hd as [|? ? Hni Hd']; subst. cbn [s_input s_obj] in IH.
    destruct IH as (I1 & I2 & I3); [congruence|intros x Hx; apply Hl; now right|exact Hd'|].
    split; [exact I1|]. cbn [map fst In]. destruct (Nat.eq_dec i i0) as [->|Hi].
    + assert (f = f0) by congruence. subst f. split; [tauto|]. intros _. exists c. split.
      * eapply unpacking_grows; [exact H|]. eapply eval_result; eauto.
      * rewrite T, I2 by exact Hni. apply lookup_set_same.
    + assert (Hn : f_name f <> n0) by (eapply name_of; eauto). rewrite lookup_set_other in I2, I3 by exact Hn.
      split; [intros Hx; rewrite I2 by tauto; exact Q2|]. intros [Hx|Hx]; [contradiction|]. destruct (I3 Hx) as (c0 & C1 & C2). exists c0. split; [exact C1|].
      rewrite C2. destruct (truthy c0); [exact Q2|reflexivity].
  - pose proof (Hl (i, f) (or_introl eq_refl)) as Hif. apply numbered_in in Hif.
    destruct (eval_quiet _ _ _ _ _ _ E b Hb) as (Q1 & Q2); [apply plain_reading, (field_plain C Hplain _ _ Hif)|].
    destruct (evals_quiet _ _ _ _ _ b E2) as (R1 & R2); [congruence|apply Forall_map, Forall_forall; intros; exact I|].
    cbn [map fst] in Hd. inversion Hd as [|? ? Hni Hd']; subst.
    destruct IH as (I1 & I2 & I3); [congruence|intros x Hx; apply Hl; now right|exact Hd'|].
    split; [exact I1|]. cbn [map fst In]. destruct (Nat.eq_dec i i0) as [->|Hi].
    + assert (f = f0) by congruence. subst f. split; [tauto|]. intros _. exists c. split.
      * eapply unpacking_grows; [exact H|]. eapply evals_grow; [exact E2|]. eapply eval_result; eauto.
      * rewrite T, I2 by exact Hni. congruence.
    + split; [intros Hx; rewrite I2 by tauto; congruence|]. intros [Hx|Hx]; [contradiction|]. destruct (I3 Hx) as (c0 & C1 & C2). exists c0. split; [exact C1|].
      rewrite C2. destruct (truthy c0); [congruence|reflexivity].
Qed.
End After.

Lemma unpacking_agree C l m s m' s' : unpacking C l m s m' s' -> RefStatic.agree rid_eqb (nodes C) m -> RefStatic.agree rid_eqb (nodes C) m'.
Proof.
  intros H. induction H as [m s|i f l m s c m1 s1 m' s' E T H IH|i f l m s c m1 s1 m2 s2 m' s' E T E2 H IH]; auto; intros Ha; apply IH.
  - eapply eval_agree; eauto.
  - assert (A1 : RefStatic.agree rid_eqb (nodes C) m1) by (eapply eval_agree; eauto). clear - E2 A1.
    induction E2; auto. apply IHE2. eapply eval_agree; eauto.
Qed.

Theorem unpack_not_stored C b o n o' i f g : plain C -> NoDup (map f_name (k_fields C)) -> buf_ok b ->
  nth_error (k_fields C) i = Some f -> f_after f = Some g -> buffer_unpack C b o = (Ok n, o') ->
  exists input m s m' s', input_buffer b = Ok input /\ unpacking C (numbered C) [] (mkBst o (Some input)) m s
    /\ eval rid_eqb (nodes C) (mkRid KTotal 0) m s (Ok (rnum n)) m' s' /\ o' = s_obj s'
    /\ exists c, RefEngine.lookup rid_eqb (f_unpack_if f) m' = Some c
       /\ Marshal.lookup o' (f_name f) = if truthy c then Marshal.lookup o (f_name f) else Some VNone.
Proof.
  intros Hp Hn Kb Hf Hg H. destruct (buffer_unpack_ok C b o n o' Kb H) as (_ & input & m & s & m' & s' & A1 & A2 & A3 & A4).
  exists input, m, s, m', s'. split; [exact A1|]. split; [exact A2|]. split; [exact A3|]. split; [exact A4|].
  destruct (unpacking_quiet C Hp Hn i f g Hf Hg _ _ _ _ _ input A2 eq_refl (incl_refl _)) as (B1 & _ & B3).
  { unfold numbered. rewrite map_fst_combine by now rewrite seq_length. apply seq_NoDup. }
  destruct B3 as (c & C1 & C2). { apply (in_map fst _ (i, f)). now apply numbered_in. }
  exists c. split; [eapply eval_grows; eauto|].
  destruct (eval_quiet C Hp Hn i f g Hf Hg _ _ _ _ _ _ A3 input B1) as (_ & Q); [exact I|]. subst o'. rewrite Q. exact C2.
Qed.

Theorem unpack_not_stored_always C b o n o' i f g c : plain C -> NoDup (map f_name (k_fields C)) -> buf_ok b ->
  nth_error (k_fields C) i = Some f -> f_after f = Some g -> static (nodes C) (f_unpack_if f) c -> truthy c = true ->
  buffer_unpack C b o = (Ok n, o') -> Marshal.lookup o' (f_name f) = Marshal.lookup o (f_name f).
Proof.
  intros Hp Hn Kb Hf Hg (k & Sc) T H. destruct (unpack_not_stored C b o n o' i f g Hp Hn Kb Hf Hg H) as (input & m & s & m' & s' & A1 & A2 & A3 & A4 & c' & C1 & C2).
  pose proof (unpacking_agree _ _ _ _ _ _ A2 (RefStatic.agree_nil _ _)) as G. destruct (eval_agree C _ _ _ _ _ _ A3 G) as (G' & _).
  pose proof (G' _ _ _ _ C1 Sc). subst c'. now rewrite T in C2.
Qed.

(** What other references see. *)
Theorem field_reference_converted C i f g m s v m' s' : nth_error (k_fields C) i = Some f -> f_after f = Some g -> s_input s <> None ->
  RefEngine.lookup rid_eqb (mkRid KField i) m = None -> RefEngine.lookup rid_eqb (mkRid KUnpackValue i) m = None ->
  eval rid_eqb (nodes C) (mkRid KField i) m s (Ok v) m' s' ->
  exists x y m1, eval rid_eqb (nodes C) (mkRid KFieldUnpack i) m s (Ok (RVal x)) m1 s' /\ g x = Ok y /\ v = RVal y.
Proof.
  intros Hf Hg Hs N1 N2 H. inversion H as [|? ? ? ? m1 ? _ X|]; subst; [congruence|]. unfold nodes in X. cbn [r_kind r_no] in X. rewrite Hf in X.
  cbn [field_node] in X. unfold field_value, if_pack in X. inversion X as [| | | |? ? ? ? w s1 ? ? ? E1 E2|]; subst.
  apply pair_equal_spec in E1. destruct E1 as (E1 & <-). destruct (s_input s) as [b|]; [|congruence]. inversion E1; subst w. cbn in E2.
  inversion E2 as [| |? ? ? ? w m2 s2 ? ? ? E3 E4| | |]; subst. inversion E4; subst. clear X E2 E4 H.
  inversion E3 as [|? ? ? ? m3 ? _ X|]; subst; [congruence|]. unfold nodes in X. cbn [r_kind r_no] in X. rewrite Hf in X.
  cbn [field_node] in X. unfold unpack_value in X. rewrite Hg in X. inversion X as [| |? ? ? ? w m2 s2 ? ? ? E4 E5| | |]; subst.
  destruct w as [x| | | |]; cbn [as_value rbind ret lift] in E5; try (now inversion E5). destruct (g x) as [y|e] eqn:Eg; cbn [rbind ret lift] in E5; inversion E5; subst.
  exists x, y, m3. auto.
Qed.

(** ** Packing: the object holds what was packed *)
Section Before.
Variable C : cls.
Hypothesis Hplain : plain C.
Hypothesis Hnames : NoDup (map f_name (k_fields C)).
Hypothesis Hquiet : quiet_before C.
Variable o : attrs.
Notation look := (RefEngine.lookup rid_eqb).

Definition writing (r : rid) : Prop :=
  match r_kind r with
  | KPackPos | KPackLen | KBefore | KPackValue | KPack | KField | KUser | KTotal => True
  | _ => False
  end.
(** What is known agrees with the object. *)
Definition good (m : memory) (s : bst) : Prop :=
  s_input s = None /\ same_but_assigned C o (s_obj s)
  /\ forall i f, nth_error (k_fields C) i = Some f ->
     (forall w, look (mkRid KBefore i) m = Some w -> exists v h a, w = RVal v /\ f_before f = Some (BFun h) /\ same_but_assigned C o a /\ fst (h a) = Ok v)
     /\ (forall w, look (mkRid KPackValue i) m = Some w -> exists v, w = RVal v /\ Marshal.lookup (s_obj s) (f_name f) = Some v /\ value_source C o m f v)
     /\ (forall b, look (mkRid KPack i) m = Some (RBuf b) -> exists v args n, look (mkRid KPackValue i) m = Some (RVal v) /\ f_pack f args v n = Ok b).

Inductive gentle : bprog -> Prop :=
| g_ret v : gentle (PRet v)
| g_raise e : gentle (PRaise e)
| g_ref r k : writing r -> (forall v, gentle (k v)) -> gentle (PRef r k)
| g_ctx f k : (forall s x s', s_input s = None -> f s = (x, s') -> s' = s /\ forall v, x = Ok v -> gentle (k v)) -> gentle (PCtx f k).
Lemma plain_writing r : plain_rid r -> writing r.
Proof. unfold plain_rid, writing. now intros [->| ->]. Qed.
Lemma g_plain r k : plain_rid r -> (forall v, gentle (k v)) -> gentle (PRef r k).
Proof. intros H. constructor; auto using plain_writing. Qed.
Lemma g_res m : gentle (ret m).
Proof. destruct m; constructor. Qed.
Lemma g_look h k : (forall v, gentle (k v)) -> gentle (PCtx (fun s => (h s, s)) k).
Proof. intros H. constructor. intros s x s' Hb E. injection E as <- <-. auto. Qed.
Lemma g_ev a k : plain_arg a -> (forall v, gentle (k v)) -> gentle (ev a k).
Proof. intros Ha H. destruct a; cbn [ev]; auto. now apply g_plain. Qed.
Lemma g_ev_list l : forall k, Forall plain_arg l -> (forall vs, gentle (k vs)) -> gentle (ev_list l k).
Proof. induction l as [|a l IH]; intros k Hl H; cbn [ev_list]; auto. inversion Hl; subst. apply g_ev; auto. Qed.
Lemma g_ev_refs l : forall k, Forall writing l -> (forall vs, gentle (k vs)) -> gentle (ev_refs l k).
Proof. induction l as [|a l IH]; intros k Hl H; cbn [ev_refs]; auto. inversion Hl; subst. apply g_ref; auto. Qed.
Lemma g_if_pack p u : gentle p -> gentle (if_pack p u).
Proof. intros H. constructor. intros s x s' Hb E. injection E as <- <-. rewrite Hb. split; [auto|]. intros v [= <-]. exact H. Qed.
Lemma g_some w k : (forall l, gentle (k l)) -> gentle (some_ranges w k).
Proof. intros H. unfold some_ranges. destruct (as_ranges w) as [[|]|]; auto; constructor. Qed.
Lemma g_total : gentle (total_prog C).
Proof.
  apply g_look. intros z. destruct z as [[]| | | |]; try apply g_ret. apply g_if_pack. apply g_ev_refs; [|intros; apply g_res].
  apply Forall_map, Forall_forall. intros; exact I.
Qed.
Lemma g_after i f : gentle (after_prog i f).
Proof. apply g_if_pack. constructor; [exact I|]. intros. apply g_res. Qed.
Lemma g_user u : plain_user u -> gentle (user_prog C u).
Proof.
  intros Hu. destruct u; cbn [plain_user] in Hu; cbn [user_prog].
  - constructor.
  - apply g_ev; [apply Hu|]. intros. apply g_ev; [apply Hu|]. intros. apply g_res.
  - apply g_ev; [apply Hu|]. intros. apply g_res.
  - apply g_ev; [apply Hu|]. intros. constructor.
  - apply g_ev; [apply Hu|]. intros. apply g_ev; [apply Hu|]. intros. apply g_res.
  - apply g_ev; [apply Hu|]. intros. apply g_res.
  - apply g_ev_list; [apply Hu|]. intros. apply g_res.
  - apply g_plain; [apply Hu|]. intros. apply g_some. intros. apply g_ev; [apply Hu|]. intros. apply g_res.
  - apply g_plain; [apply Hu|]. intros. apply g_some. intros. apply g_ev; [apply Hu|]. intros. apply g_ev; [apply Hu|]. intros. apply g_res.
  - destruct (nth_error (k_fields C) i) as [f|] eqn:E; [|constructor]. apply g_after.
  - apply g_total.
  - apply g_ev; [apply Hu|]. intros. apply g_res.
  - apply g_ev_list; [apply Hu|]. intros. apply g_res.
  - apply g_ev_list; [apply Hu|]. intros. apply g_res.
  - apply g_look. intros. constructor.
  - destruct (find_field n (numbered C)); [|apply g_look; intros; constructor]. apply g_look. intros. constructor; [exact I|]. intros. constructor.
  - constructor; [exact I|]. intros. constructor.
  - apply g_ev_list; [apply Hu|]. intros. apply g_res.
  - destruct Hu.
Qed.
Lemma field_quiet i f h : nth_error (k_fields C) i = Some f -> f_before f = Some (BFun h) -> forall a, snd (h a) = a.
Proof. intros E Eh. pose proof (proj1 (Forall_forall _ _) Hquiet f (nth_error_In _ _ E)) as Q. cbv beta in Q. now rewrite Eh in Q. Qed.
Lemma g_pack i f : plain_field f -> gentle (pack_ref f i).
Proof.
  intros P. constructor; [exact I|]. intros. unfold with_size. destruct (f_size f).
  - apply g_ev_list; [apply P|]. intros. apply g_res.
  - constructor; [exact I|]. intros. apply g_ev_list; [apply P|]. intros. apply g_res.
Qed.
Lemma node_gentle r : writing r -> r_kind r <> KPackValue -> gentle (nodes C r).
Proof.
  intros Hr Hn. destruct r as [k i]. unfold nodes. cbn [r_kind r_no]. unfold writing in Hr. cbn [r_kind] in Hr, Hn.
  destruct k; try contradiction; try (destruct (nth_error (k_fields C) i) as [f|] eqn:E; [|constructor]; pose proof (field_plain C Hplain _ _ E) as P; cbn [field_node]).
  - apply g_plain; [apply P|]. intros w. destruct (as_ranges w) as [l|]; [|constructor]. destruct (has_overlaps l) as [[|]|]; try constructor.
    destruct (list_is_open l); [|constructor]. constructor; [exact I|]. intros. apply g_res.
  - apply g_plain; [apply P|]. intros w. destruct (as_ranges w) as [l|]; [|constructor]. destruct (list_is_open l); [constructor|].
    constructor; [exact I|]. intros. apply g_res.
  - unfold before_value. destruct (f_before f) as [[h|x|r]|] eqn:Eh; try constructor. intros s x s' Hb E1.
    pose proof (field_quiet _ _ _ E Eh (s_obj s)) as Q. destruct (h (s_obj s)) as [y a]. cbn [snd] in Q. subst a. injection E1 as <- <-.
    split; [now destruct s|]. intros. constructor.
  - now apply g_pack.
  - apply g_if_pack. constructor; [exact I|]. intros. constructor.
  - destruct (nth_error (k_users C) i) as [u|] eqn:E; [|constructor]. apply g_user.
    apply (proj1 (Forall_forall _ _) (proj1 Hplain)). eapply nth_error_In; eauto.
  - apply g_total.
Qed.

Lemma run_gentle (d : rid -> ctx rid rv -> bst -> option (outcome rid rv * ctx rid rv * bst)) :
  (forall r c s v c' s', d r c s = Some (OOk v, c', s') -> writing r -> good (c_cache c) s -> good (c_cache c') s') ->
  forall p c s v c' s', run d p c s = Some (OOk v, c', s') -> gentle p -> good (c_cache c) s -> good (c_cache c') s'.
Proof.
  intros Hd. induction p as [v|e|r k IH|f k IH]; intros c s v' c' s' H Hg G; cbn [run] in H.
  - inversion H; subst. exact G.
  - discriminate.
  - inversion Hg; subst. destruct (d r c s) as [[[o1 c1] s1]|] eqn:E; [|discriminate]. destruct o1; try discriminate. eauto.
  - inversion Hg as [| | |? ? Hf]; subst. destruct (f s) as [[v|e] s1] eqn:E; [|discriminate]. destruct (Hf _ _ _ (proj1 G) E) as (-> & Hk). eapply IH; eauto.
Qed.
Lemma run_ev_list d l : forall k c s v c' s', run (V := rv) (St := bst) d (ev_list l k) c s = Some (OOk v, c', s') ->
  exists vs c1 s1, run d (k vs) c1 s1 = Some (OOk v, c', s').
Proof.
  induction l as [|a l IH]; intros k c s v c' s' H; cbn [ev_list] in H; [eauto|].
  destruct a as [x|r]; cbn [ev run] in H.
  - destruct (IH _ _ _ _ _ _ H) as (vs & c1 & s1 & E). eauto.
  - destruct (d r c s) as [[[o1 c1] s1]|]; [|discriminate]. destruct o1; try discriminate.
    destruct (IH _ _ _ _ _ _ H) as (vs & c2 & s2 & E). eauto.
Qed.
Lemma run_ret d m c s v c' s' : run (R := rid) (V := rv) (St := bst) d (ret m) c s = Some (OOk v, c', s') -> m = Ok v /\ c' = c /\ s' = s.
Proof. destruct m; cbn [ret lift run]; intros H; inversion H; subst. auto. Qed.

(** Storing a result that says nothing about a field. *)
Lemma source_store m r w f v : look r m = None -> value_source C o m f v -> value_source C o ((r, w) :: m) f v.
Proof.
  intros N. unfold value_source. destruct (f_before f) as [[h|x|r']|]; auto. intros E. cbn [RefEngine.lookup].
  destruct (rid_eqb r' r) eqn:E2; [|exact E]. apply rid_eqb_spec in E2. congruence.
Qed.
Lemma look_other r r' w (m : memory) : r <> r' -> look r ((r', w) :: m) = look r m.
Proof. apply (lookup_cons_other rid_eqb rid_eqb_spec). Qed.
Lemma look_same r w (m : memory) : look r ((r, w) :: m) = Some w.
Proof. apply (lookup_cons_same rid_eqb rid_eqb_spec). Qed.
Lemma store_other m s r w : good m s -> look r m = None -> r_kind r <> KBefore -> r_kind r <> KPackValue -> r_kind r <> KPack -> good ((r, w) :: m) s.
Proof.
  intros (A & B & G) N N1 N2 N3. split; [exact A|]. split; [exact B|]. intros i f Hf. destruct (G i f Hf) as (G1 & G2 & G3).
  rewrite !look_other by (intros <-; cbn [r_kind] in *; congruence). split; [exact G1|]. split; [|exact G3].
  intros w' Hw. destruct (G2 w' Hw) as (v & E1 & E2 & E3). exists v. eauto using source_store.
Qed.
Lemma store_value m s s' i f x : good m s -> look (mkRid KPackValue i) m = None -> nth_error (k_fields C) i = Some f -> value_source C o m f x ->
  s_input s' = None -> same_but_assigned C o (s_obj s') -> Marshal.lookup (s_obj s') (f_name f) = Some x ->
  (forall n, n <> f_name f -> Marshal.lookup (s_obj s') n = Marshal.lookup (s_obj s) n) -> good ((mkRid KPackValue i, RVal x) :: m) s'.
Proof.
  intros (A & B & G) N Hf V A' B' L O. split; [exact A'|]. split; [exact B'|]. intros j f' Hj. destruct (G j f' Hj) as (G1 & G2 & G3).
  rewrite (look_other (mkRid KBefore j)), (look_other (mkRid KPack j)) by discriminate. split; [exact G1|].
  destruct (Nat.eq_dec j i) as [->|Hi].
  - assert (f' = f) by congruence. subst f'. rewrite look_same. split.
    + intros w [= <-]. exists x. split; [reflexivity|]. split; [exact L|]. now apply source_store.
    + intros b Hb. destruct (G3 b Hb) as (v & args & n & E & _). congruence.
  - rewrite look_other by congruence. split; [|exact G3]. intros w Hw. destruct (G2 w Hw) as (v & E1 & E2 & E3). exists v. split; [exact E1|].
    split; [|now apply source_store]. rewrite O; [exact E2|]. eapply name_of; eauto.
Qed.
Lemma store_before m s i f h a v : good m s -> look (mkRid KBefore i) m = None -> nth_error (k_fields C) i = Some f -> f_before f = Some (BFun h) ->
  same_but_assigned C o a -> fst (h a) = Ok v -> good ((mkRid KBefore i, RVal v) :: m) s.
Proof.
  intros (A & B & G) N Hf Hb Ha Hv. split; [exact A|]. split; [exact B|]. intros j f' Hj. destruct (G j f' Hj) as (G1 & G2 & G3).
  rewrite (look_other (mkRid KPackValue j)), (look_other (mkRid KPack j)) by discriminate. split; [|split; [|exact G3]].
  - intros w. destruct (Nat.eq_dec j i) as [->|Hi]; [rewrite look_same|rewrite look_other by congruence; auto].
    intros [= <-]. assert (f' = f) by congruence. subst f'. exists v, h, a. auto.
  - intros w Hw. destruct (G2 w Hw) as (v' & E1 & E2 & E3). exists v'. eauto using source_store.
Qed.
Lemma store_pack m s i f w : good m s -> look (mkRid KPack i) m = None -> nth_error (k_fields C) i = Some f ->
  (forall b, w = RBuf b -> exists v args n, look (mkRid KPackValue i) m = Some (RVal v) /\ f_pack f args v n = Ok b) -> good ((mkRid KPack i, w) :: m) s.
Proof.
  intros (A & B & G) N Hf Hw. split; [exact A|]. split; [exact B|]. intros j f' Hj. destruct (G j f' Hj) as (G1 & G2 & G3).
  rewrite (look_other (mkRid KPackValue j)), (look_other (mkRid KBefore j)) by discriminate. split; [exact G1|]. split.
  - intros w' Hw'. destruct (G2 w' Hw') as (v' & E1 & E2 & E3). exists v'. eauto using source_store.
  - intros b. destruct (Nat.eq_dec j i) as [->|Hi]; [rewrite look_same|rewrite look_other by congruence; auto].
    intros [= ->]. assert (f' = f) by congruence. subst f'. auto.
Qed.

Lemma run_assign d n w c s v c' s' : run (R := rid) (V := rv) d (assign n w) c s = Some (OOk v, c', s') ->
  exists x, w = RVal x /\ v = RVal x /\ c' = c /\ s' = mkBst (set_attr (s_obj s) n x) (s_input s).
Proof. unfold assign. cbn [run]. destruct w; cbn [as_value]; intros H; inversion H; subst. eauto. Qed.
Lemma assigned_same a f x : In f (k_fields C) -> f_before f <> None -> same_but_assigned C o a -> same_but_assigned C o (set_attr a (f_name f) x).
Proof.
  intros Hin Hb H n Hn. rewrite lookup_set_other; [now apply H|]. intros E. apply Hn. exists f. auto.
Qed.
Lemma not_assigned i f : nth_error (k_fields C) i = Some f -> f_before f = None -> ~ assigned_name C (f_name f).
Proof.
  intros Hf Hb (f' & Hin & Hb' & Hn). apply In_nth_error in Hin. destruct Hin as (j & Hj). destruct (Nat.eq_dec j i) as [->|Hi]; [congruence|].
  exact (name_of C Hnames i f Hf j f' Hj Hi Hn).
Qed.

Lemma numbered_nth i f : nth_error (k_fields C) i = Some f -> nth_error (numbered C) i = Some (i, f).
Proof.
  intros H. assert (L : (i < List.length (k_fields C))%nat) by (apply nth_error_Some; congruence). unfold numbered. revert H L. generalize (k_fields C).
  assert (G : forall l k j, nth_error l j = Some f -> nth_error (combine (seq k (List.length l)) l) j = Some ((k + j)%nat, f)).
  { induction l as [|x l IH]; intros k j H; [destruct j; discriminate|]. destruct j as [|j]; cbn [List.length seq combine nth_error] in *.
    - inversion H. now rewrite Nat.add_0_r.
    - rewrite IH by exact H. do 2 f_equal. lia. }
  intros l H _. now apply (G l 0%nat).
Qed.

Lemma deref_good n : forall r c s v c' s', deref rid_eqb (nodes C) n r c s = Some (OOk v, c', s') -> writing r -> good (c_cache c) s -> good (c_cache c') s'.
Proof.
  induction n as [|n IH]; intros r c s v c' s' H Hr G; [discriminate|]. cbn [RefEngine.deref] in H.
  destruct (mem rid_eqb r (c_nodes c)); [discriminate|]. destruct (look r (c_cache c)) as [w|] eqn:El; [inversion H; subst; exact G|].
  destruct (run (deref rid_eqb (nodes C) n) (nodes C r) (push r c) s) as [[[[w|e|x] c1] s1]|] eqn:E; try discriminate. inversion H; subst. clear H.
  destruct (run_kept rid_eqb rid_eqb_spec (nodes C) _ _ _ _ _ _ _ E) as (_ & _ & K3 & K4 & _). cbn [push c_cache c_nodes] in K3, K4.
  assert (N : look r (c_cache c1) = None) by (rewrite K4; [exact El|now left]).
  cbn [pop store c_cache]. change (c_cache c) with (c_cache (push r c)) in G.
  destruct r as [k i]. destruct k; try contradiction Hr.
  4:{ (* the value to pack *)
    clear K3 K4. change (nodes C (mkRid KPackValue i)) with (match nth_error (k_fields C) i with Some f => field_node KPackValue i f | None => PRaise NotModelled end) in E.
    destruct (nth_error (k_fields C) i) as [f|] eqn:Hf; [|discriminate]. cbn [field_node] in E.
    pose proof (nth_error_In _ _ Hf) as Hin. pose proof (field_plain C Hplain _ _ Hf) as P.
    unfold pack_value in E. destruct (f_before f) as [[h|x|r']|] eqn:Hb; cbn [run get_attr] in E.
    - destruct (deref rid_eqb (nodes C) n (mkRid KBefore i) (push (mkRid KPackValue i) c) s) as [[[[w|e|x] c2] s2]|] eqn:E2; try discriminate.
      pose proof (IH _ _ _ _ _ _ E2 I G) as G2. pose proof (deref_value_cached rid_eqb rid_eqb_spec (nodes C) _ _ _ _ _ _ _ E2) as L.
      apply run_assign in E. destruct E as (x & -> & -> & -> & ->).
      destruct (proj1 (proj2 (proj2 G2) i f Hf) _ L) as (v' & h' & a & [= <-] & Hb' & Ha & Hv).
      apply (store_value _ s2 _ i f x G2 N Hf); cbn [s_input s_obj]; [unfold value_source; rewrite Hb; exists a; split; [exact Ha|congruence]|apply G2|..].
      + apply assigned_same; [exact Hin|congruence|apply G2].
      + apply lookup_set_same.
      + intros m Hm. apply lookup_set_other. congruence.
    - apply run_assign in E. destruct E as (y & [= <-] & -> & -> & ->).
      apply (store_value _ s _ i f x G N Hf); cbn [s_input s_obj]; [unfold value_source; now rewrite Hb|apply G|..].
      + apply assigned_same; [exact Hin|congruence|apply G].
      + apply lookup_set_same.
      + intros m Hm. apply lookup_set_other. congruence.
    - destruct (deref rid_eqb (nodes C) n r' (push (mkRid KPackValue i) c) s) as [[[[w|e|x] c2] s2]|] eqn:E2; try discriminate.
      assert (W' : writing r') by (destruct P as (_ & _ & _ & _ & P & _); rewrite Hb in P; now apply plain_writing).
      pose proof (IH _ _ _ _ _ _ E2 W' G) as G2. pose proof (deref_value_cached rid_eqb rid_eqb_spec (nodes C) _ _ _ _ _ _ _ E2) as L.
      apply run_assign in E. destruct E as (x & -> & -> & -> & ->).
      apply (store_value _ s2 _ i f x G2 N Hf); cbn [s_input s_obj]; [unfold value_source; now rewrite Hb|apply G2|..].
      + apply assigned_same; [exact Hin|congruence|apply G2].
      + apply lookup_set_same.
      + intros m Hm. apply lookup_set_other. congruence.
    - destruct (Marshal.lookup (s_obj s) (f_name f)) as [x|] eqn:Ex; [|discriminate]. inversion E; subst.
      apply (store_value _ _ _ i f x G N Hf); [unfold value_source; rewrite Hb|apply G|apply G|exact Ex|reflexivity].
      rewrite <- Ex. symmetry. apply G. eapply not_assigned; eauto. }
  all: pose proof (run_gentle _ IH _ _ _ _ _ _ E (node_gentle _ Hr ltac:(discriminate)) G) as G1.
  1, 2, 5, 6, 7: (apply store_other; [exact G1|exact N|discriminate..]).
  - (* set_before_pack *)
    change (nodes C (mkRid KBefore i)) with (match nth_error (k_fields C) i with Some f => field_node KBefore i f | None => PRaise NotModelled end) in E.
    destruct (nth_error (k_fields C) i) as [f|] eqn:Hf; [|discriminate]. cbn [field_node] in E.
    unfold before_value in E. destruct (f_before f) as [[h|x|r']|] eqn:Hb; try discriminate. cbn [run] in E.
    destruct (h (s_obj s)) as [[y|e] a] eqn:Eh; cbn [rmap] in E; [|discriminate]. inversion E; subst.
    apply (store_before _ _ i f h (s_obj s) y G1 N Hf Hb); [apply G|now rewrite Eh].
  - (* the packed value *)
    change (nodes C (mkRid KPack i)) with (match nth_error (k_fields C) i with Some f => field_node KPack i f | None => PRaise NotModelled end) in E.
    destruct (nth_error (k_fields C) i) as [f|] eqn:Hf; [|discriminate]. cbn [field_node] in E.
    apply (store_pack _ _ i f v G1 N Hf). intros b ->. unfold pack_ref in E. cbn [run] in E.
    destruct (deref rid_eqb (nodes C) n (mkRid KPackValue i) (push (mkRid KPack i) c) s) as [[[[w|e|x] c2] s2]|] eqn:E2; try discriminate.
    pose proof (deref_value_cached rid_eqb rid_eqb_spec (nodes C) _ _ _ _ _ _ _ E2) as L.
    assert (exists z args, (let* v := as_value w in let* n := opt_num_bits z in let* b := f_pack f args v n in Ok (RBuf b)) = Ok (RBuf b)
      /\ look (mkRid KPackValue i) (c_cache c1) = Some w) as (z & args & F & L').
    { pose proof (run_kept rid_eqb rid_eqb_spec (nodes C) _ _ _ _ _ _ _ E) as (_ & _ & K & _). specialize (K _ _ L).
      unfold with_size in E. destruct (f_size f) as [z|].
      - apply run_ev_list in E. destruct E as (args & c3 & s3 & E). apply run_ret in E. destruct E as (E & _). eauto.
      - cbn [run] in E. destruct (deref rid_eqb (nodes C) n (mkRid KPackLen i) c2 s2) as [[[[z|e|x] c3] s3]|]; try discriminate.
        apply run_ev_list in E. destruct E as (args & c4 & s4 & E). apply run_ret in E. destruct E as (E & _). eauto. }
    destruct w as [x| | | |]; cbn [as_value rbind] in F; try discriminate. destruct (opt_num_bits z) as [q|]; cbn [rbind] in F; [|discriminate].
    destruct (f_pack f args x q) as [b'|] eqn:Fp; cbn [rbind] in F; [|discriminate]. inversion F; subst b'. exists x, args, q. auto.
Qed.

Definition wgood (w : world) : Prop := good (c_cache (w_ctx w)) (w_st w).
Lemma dref_good r w v w' : dref C r w = (Ok v, w') -> writing r -> wgood w -> wgood w'.
Proof.
  unfold dref, wgood. destruct (deref rid_eqb (nodes C) (fuel C) r (w_ctx w) (w_st w)) as [[[[x|e|x] c] s]|] eqn:E; intros H; inversion H; subst. cbn [w_ctx w_st].
  eapply deref_good; eauto.
Qed.
Lemma pack_field_good i f w w' : nth_error (k_fields C) i = Some f -> pack_field C i f w = (Ok tt, w') -> wgood w -> wgood w'.
Proof.
  intros Hf H G. pose proof (field_plain C Hplain _ _ Hf) as P. unfold pack_field in H. apply sbind_ok in H. destruct H as (c & w1 & H1 & H).
  pose proof (dref_good _ _ _ _ H1 (plain_writing _ (proj1 (proj2 (proj2 P)))) G) as G1. destruct (truthy c); [|inversion H; subst; exact G1].
  apply wrap_ok in H. apply sbind_ok in H. destruct H as (p & w2 & H2 & H). pose proof (dref_good _ _ _ _ H2 I G1) as G2.
  apply sbind_ok in H. destruct H as (q & w3 & H3 & H). pose proof (dref_good _ _ _ _ H3 I G2) as G3.
  apply sbind_ok in H. destruct H as (b & w4 & H4 & H). apply sbind_ok in H. destruct H as (l & w5 & H5 & H).
  unfold slift in H4, H5. inversion H4; subst w4. inversion H5; subst w5.
  unfold out_set in H. destruct (output_set b l (w_out w3)) as [[[]|e] x]; inversion H; subst. exact G3.
Qed.
Lemma pack_fields_good l : forall w w', incl l (numbered C) -> sforeach l (fun p => pack_field C (fst p) (snd p)) w = (Ok tt, w') -> wgood w -> wgood w'.
Proof.
  induction l as [|[i f] l IH]; intros w w' Hl H G; cbn [sforeach fst snd] in H; [inversion H; subst; exact G|].
  apply sbind_ok in H. destruct H as ([] & w1 & H1 & H). apply (IH w1 w'); [intros x Hx; apply Hl; now right|exact H|].
  eapply pack_field_good; eauto. apply numbered_in, Hl. now left.
Qed.
End Before.

Theorem pack_leaves_packed C o bytes o' : plain C -> NoDup (map f_name (k_fields C)) -> quiet_before C -> packers_ok C ->
  buffer_pack C o = (Ok bytes, o') ->
  exists ps m bits, packing C (numbered C) [] (mkBst o None) ps m (mkBst o' None)
    /\ output_of ps bits /\ bytes = sized (k_size C) (bytes_of_bits bits)
    /\ same_but_assigned C o o' /\ Forall2 (packed_from C o o' m) (k_fields C) ps.
Proof.
  intros Hp Hn Hq Hk H. unfold buffer_pack in H.
  destruct (sforeach (numbered C) (fun p => pack_field C (fst p) (snd p)) (start_pack o)) as [[[]|e] w] eqn:E; [|discriminate].
  destruct (pack_fields_ok _ _ _ _ Hk (wok_new C _) out_ok_new E) as (W & O & N & ps & F & P & K).
  assert (G : good C o (c_cache (w_ctx w)) (w_st w)).
  { apply (pack_fields_good C Hp Hn Hq o _ _ _ (incl_refl _) E). split; [reflexivity|]. split; [intros n _; reflexivity|]. intros. split; [|split]; discriminate. }
  cbn [start_pack w_st w_ctx w_out new_ctx c_cache s_input] in *.
  apply pair_equal_spec in H. destruct H as (H1 & H2). subst o'.
  destruct O as (KO & _). unfold ba_ok in KO. rewrite buf_bytes_spec in H1 by exact KO. cbn [rbind] in H1. fold (ba_bits (w_out w)) in H1.
  exists ps, (c_cache (w_ctx w)), (ba_bits (w_out w)).
  split; [destruct (w_st w) as [o1 i1]; cbn in *; subst; exact K|].
  split; [apply output_of_placed; [exact F|]; rewrite new_baa_bits in P by constructor; exact P|].
  destruct (fix_size_c C (bytes_of_bits (ba_bits (w_out w)))) as (S1 & S2).
  assert (T : ~ too_long (k_size C) (bytes_of_bits (ba_bits (w_out w)))) by (intros T; rewrite S2 in H1 by auto; discriminate).
  split; [rewrite S1 in H1 by auto; congruence|]. split; [apply G|].
  pose proof (packing_parts _ _ _ _ _ _ _ K) as Q. apply Forall2_nth_iff in Q. destruct Q as (L & Q).
  assert (Ln : List.length (numbered C) = List.length (k_fields C)) by (unfold numbered; rewrite combine_length, seq_length; lia).
  apply Forall2_nth_iff. split; [lia|]. intros i f p Hf Ep.
  assert (Hi : nth_error (numbered C) i = Some (i, f)) by (now apply numbered_nth).
  destruct (Q i _ _ Hi Ep) as (c & C1 & C2 & C3). cbn [fst snd] in *. destruct p as [[b r]|]; [|exact I]. cbn [packed_from].
  destruct (truthy c) eqn:Tc; [|specialize (C2 eq_refl); discriminate]. destruct (C3 eq_refl) as (b' & r' & [= <- <-] & B1 & _).
  destruct (proj2 (proj2 G) i f Hf) as (_ & G2 & G3). destruct (G3 b B1) as (v & args & n & V1 & V2).
  destruct (G2 _ V1) as (v' & [= <-] & V3 & V4). exists v, args, n. auto.
Qed.

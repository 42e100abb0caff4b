(** Fields that are left out when unpacking. *)
From Verif Require Import Base BaseProofs Marshal Range RangeSpec IoBuffer IoSpec IoProofs FieldFacts RefEngine RefSpec RefProofs RefStatic
  BufferModel BufferSpec BufferPlace BufferFacts BufferPack BufferTrip BufferErrors BufferClass.
From Coq Require Import ZArith List Bool String Lia ZifyBool ZifyNat.
Import ListNotations.
Open Scope list_scope.
Open Scope Z_scope.
Ltac Zify.zify_post_hook ::= Z.div_mod_to_equations.

Section Skipped.
Variable C : cls.
Hypothesis Hplain : plain C.
Hypothesis Hnames : NoDup (map f_name (k_fields C)).
Variables (i0 : nat) (f0 : field).
Hypothesis Hf0 : nth_error (k_fields C) i0 = Some f0.
Let n0 := f_name f0.

(** References of the unpacking side. *)
Definition reading (r : rid) : Prop :=
  match r_kind r with
  | KUnpackPos | KUnpackLen | KPart | KUnpack | KFieldUnpack | KUnpackValue | KField | KUser | KTotal => True
  | _ => False
  end.
(** A program of the unpacking side that leaves the attribute alone (if [strict]). *)
Section Strict.
Variable strict : Prop.
Inductive harmless : bprog -> Prop :=
| h_ret v : harmless (PRet v)
| h_raise e : harmless (PRaise e)
| h_ref r k : reading r -> (forall v, harmless (k v)) -> harmless (PRef r k)
| h_ctx f k : (forall s b x s', s_input s = Some b -> f s = (x, s') ->
      s_input s' = Some b /\ (strict -> Marshal.lookup (s_obj s') n0 = Marshal.lookup (s_obj s) n0)
      /\ forall v, x = Ok v -> harmless (k v)) -> harmless (PCtx f k).

Lemma plain_reading r : plain_rid r -> reading r.
Proof. unfold plain_rid, reading. now intros [->| ->]. Qed.
Lemma h_plain r k : plain_rid r -> (forall v, harmless (k v)) -> harmless (PRef r k).
Proof. intros H. constructor; auto using plain_reading. Qed.
Lemma h_res m : harmless (ret m).
Proof. destruct m; constructor. Qed.
Lemma h_look g k : (forall v, harmless (k v)) -> harmless (PCtx (fun s => (g s, s)) k).
Proof. intros H. constructor. intros s b x s' Hb E. injection E as <- <-. auto. Qed.
Lemma h_ev a k : plain_arg a -> (forall v, harmless (k v)) -> harmless (ev a k).
Proof. intros Ha H. destruct a; cbn [ev]; auto. now apply h_plain. Qed.
Lemma h_ev_list l : forall k, Forall plain_arg l -> (forall vs, harmless (k vs)) -> harmless (ev_list l k).
Proof.
  induction l as [|a l IH]; intros k Hl H; cbn [ev_list]; auto. inversion Hl; subst. apply h_ev; auto.
Qed.
Lemma h_if_pack p u : harmless u -> harmless (if_pack p u).
Proof. intros H. constructor. intros s b x s' Hb E. injection E as <- <-. rewrite Hb. split; [auto|]. split; [auto|]. intros v [= <-]. exact H. Qed.
Lemma h_some w k : (forall l, harmless (k l)) -> harmless (some_ranges w k).
Proof. intros H. unfold some_ranges. destruct (as_ranges w) as [[|]|]; auto; constructor. Qed.
Lemma h_assign n v : (strict -> n <> n0) -> harmless (assign n v).
Proof.
  intros Hn. constructor. intros s b x s' Hb E. destruct (as_value v); injection E as <- <-; cbn [s_input s_obj]; auto.
  - split; [auto|]. split; [intros S; apply lookup_set_other; auto|]. intros w _. constructor.
  - split; [auto|]. split; [auto|]. discriminate.
Qed.
Lemma field_plain i f : nth_error (k_fields C) i = Some f -> plain_field f.
Proof. intros H. apply (proj1 (Forall_forall _ _) (proj2 Hplain)). eapply nth_error_In; eauto. Qed.
Lemma numbered_plain : Forall (fun p => plain_field (snd p)) (numbered C).
Proof. apply Forall_forall. intros [i f] Hin. apply numbered_in in Hin. cbn [snd]. eapply field_plain; eauto. Qed.

Lemma h_ends l : forall k, Forall (fun p => plain_field (snd p)) l -> (forall vs, harmless (k vs)) -> harmless (unpack_ends l k).
Proof.
  induction l as [|[i f] l IH]; intros k Hl H; cbn [unpack_ends]; auto. inversion Hl; subst. cbn [snd] in *.
  apply h_plain; [apply H2|]. intros c. destruct (truthy c); [|apply IH; auto].
  constructor; [exact I|]. intros p. constructor; [exact I|]. intros q.
  destruct (let* p := as_pair p in _); [|constructor]. apply IH; auto.
Qed.
Lemma h_total : harmless (total_prog C).
Proof.
  apply h_look. intros z. destruct z as [[]| | | |]; try apply h_ret. apply h_if_pack. apply h_ends; [apply numbered_plain|].
  intros [|]; constructor.
Qed.
Lemma h_pos f : plain_field f -> harmless (unpack_pos f).
Proof.
  intros Hp. apply h_plain; [apply Hp|]. intros w. destruct (as_ranges w) as [l|]; [|constructor]. destruct (has_overlaps l) as [[|]|]; try constructor.
  destruct (list_is_open l); [|constructor]. apply h_look. intros. constructor.
Qed.
Lemma h_after i f : plain_field f -> harmless (after_prog i f).
Proof.
  intros Hp. apply h_if_pack. apply h_plain; [apply Hp|]. intros w. destruct (as_ranges w) as [l|]; [|constructor].
  destruct (list_is_open l); (constructor; [exact I|]); intros; apply h_res.
Qed.
Lemma h_user u : plain_user u -> harmless (user_prog C u).
Proof.
  intros Hu. destruct u; cbn [plain_user] in Hu; cbn [user_prog].
  - constructor.
  - apply h_ev; [apply Hu|]. intros. apply h_ev; [apply Hu|]. intros. apply h_res.
  - apply h_ev; [apply Hu|]. intros. apply h_res.
  - apply h_ev; [apply Hu|]. intros. constructor.
  - apply h_ev; [apply Hu|]. intros. apply h_ev; [apply Hu|]. intros. apply h_res.
  - apply h_ev; [apply Hu|]. intros. apply h_res.
  - apply h_ev_list; [apply Hu|]. intros. apply h_res.
  - apply h_plain; [apply Hu|]. intros. apply h_some. intros. apply h_ev; [apply Hu|]. intros. apply h_res.
  - apply h_plain; [apply Hu|]. intros. apply h_some. intros. apply h_ev; [apply Hu|]. intros. apply h_ev; [apply Hu|]. intros. apply h_res.
  - destruct (nth_error (k_fields C) i) as [f|] eqn:E; [|constructor]. apply h_after. eapply field_plain; eauto.
  - apply h_total.
  - apply h_ev; [apply Hu|]. intros. apply h_res.
  - apply h_ev_list; [apply Hu|]. intros. apply h_res.
  - apply h_ev_list; [apply Hu|]. intros. apply h_res.
  - apply h_look. intros. constructor.
  - destruct (find_field n (numbered C)); [|apply h_look; intros; constructor]. apply h_look. intros. constructor; [exact I|]. intros. constructor.
  - constructor; [exact I|]. intros. constructor.
  - apply h_ev_list; [apply Hu|]. intros. apply h_res.
  - destruct Hu.
Qed.

Lemma name_of i f : nth_error (k_fields C) i = Some f -> i <> i0 -> f_name f <> n0.
Proof.
  intros H Hi E. apply Hi. apply (proj1 (NoDup_nth_error _) Hnames).
  - rewrite map_length. apply nth_error_Some. congruence.
  - rewrite !nth_error_map, H, Hf0. cbn. now f_equal.
Qed.
Lemma node_harmless r : reading r -> (strict -> r <> mkRid KUnpackValue i0) -> harmless (nodes C r).
Proof.
  intros Hr Hn. destruct r as [k i]. unfold nodes. cbn [r_kind r_no]. unfold reading in Hr. cbn [r_kind] in Hr.
  destruct k; try contradiction; try (destruct (nth_error (k_fields C) i) as [f|] eqn:E; [|constructor]; pose proof (field_plain _ _ E) as P; cbn [field_node]).
  - now apply h_pos.
  - constructor; [exact I|]. intros. apply h_res.
  - constructor; [exact I|]. intros. apply h_look. intros. constructor.
  - constructor; [exact I|]. intros. unfold with_size. destruct (f_size f).
    + apply h_ev_list; [apply P|]. intros. apply h_look. intros. constructor.
    + constructor; [exact I|]. intros. apply h_ev_list; [apply P|]. intros. apply h_look. intros. constructor.
  - constructor; [exact I|]. intros. apply h_res.
  - unfold unpack_value. destruct (f_after f).
    + constructor; [exact I|]. intros. apply h_res.
    + apply h_look. intros. constructor; [exact I|]. intros. apply h_assign. intros S. apply (name_of i f E). intros ->. now apply (Hn S).
  - apply h_if_pack. constructor; [exact I|]. intros. constructor.
  - destruct (nth_error (k_users C) i) as [u|] eqn:E; [|constructor]. apply h_user.
    apply (proj1 (Forall_forall _ _) (proj1 Hplain)). eapply nth_error_In; eauto.
  - apply h_total.
Qed.
End Strict.

(** Evaluation: what is known stays known; the attribute stays unless the field is unpacked. *)
Definition kept (strict : Prop) (m : memory) (s : bst) (m' : memory) (s' : bst) : Prop :=
  (forall r v, RefEngine.lookup rid_eqb r m = Some v -> RefEngine.lookup rid_eqb r m' = Some v)
  /\ s_input s' = s_input s
  /\ (strict -> RefEngine.lookup rid_eqb (mkRid KUnpackValue i0) m' = None -> Marshal.lookup (s_obj s') n0 = Marshal.lookup (s_obj s) n0).
Lemma kept_refl st m s : kept st m s m s.
Proof. split; auto. Qed.
Lemma kept_trans st m s m1 s1 m2 s2 : kept st m s m1 s1 -> kept st m1 s1 m2 s2 -> kept st m s m2 s2.
Proof.
  intros (A1 & A2 & A3) (B1 & B2 & B3). split; [auto|]. split; [congruence|]. intros S H. rewrite B3 by auto. apply A3; [auto|].
  destruct (RefEngine.lookup rid_eqb (mkRid KUnpackValue i0) m1) eqn:E; [|reflexivity]. rewrite (B1 _ _ E) in H. discriminate.
Qed.
Lemma kept_weak st m s m' s' : kept True m s m' s' -> kept st m s m' s'.
Proof. intros (A1 & A2 & A3). split; auto. Qed.
Lemma eval_kept r m s x m' s' : eval rid_eqb (nodes C) r m s x m' s' -> forall b v, s_input s = Some b -> x = Ok v -> reading r ->
  kept True m s m' s' /\ RefEngine.lookup rid_eqb r m' = Some v.
Proof.
  intros H. induction H using eval_mut with
    (P0 := fun p m s x m' s' _ => forall st b v, s_input s = Some b -> x = Ok v -> harmless st p -> kept st m s m' s').
  - intros b w Hb [= <-] Hr. split; [apply kept_refl|assumption].
  - intros b w Hb [= <-] Hr. cbn [RefEngine.lookup]. rewrite (proj2 (rid_eqb_spec r r) eq_refl).
    split; [|reflexivity].
    assert (D : {r = mkRid KUnpackValue i0} + {r <> mkRid KUnpackValue i0}).
    { destruct (rid_eqb r (mkRid KUnpackValue i0)) eqn:E; [left; now apply rid_eqb_spec|right; intros ->; rewrite (proj2 (rid_eqb_spec _ _) eq_refl) in E; discriminate]. }
    assert (G : forall r' w, RefEngine.lookup rid_eqb r' m = Some w -> rid_eqb r' r = false).
    { intros r' w E'. destruct (rid_eqb r' r) eqn:E; [|reflexivity]. apply rid_eqb_spec in E. congruence. }
    destruct D as [D|D].
    + destruct (IHeval False b v Hb eq_refl) as (K1 & K2 & _); [apply node_harmless; [assumption|intros []]|].
      split; [|split; [assumption|]].
      * intros r' w' E'. cbn [RefEngine.lookup]. rewrite (G _ _ E'). auto.
      * intros _ E. cbn [RefEngine.lookup] in E. rewrite D, (proj2 (rid_eqb_spec _ _) eq_refl) in E. discriminate.
    + destruct (IHeval True b v Hb eq_refl) as (K1 & K2 & K3); [apply node_harmless; auto|].
      split; [|split; [assumption|]].
      * intros r' w' E'. cbn [RefEngine.lookup]. rewrite (G _ _ E'). auto.
      * intros _ E. apply K3; [exact I|]. cbn [RefEngine.lookup] in E. destruct (rid_eqb _ r) eqn:E2; [discriminate|exact E].
  - discriminate.
  - intros st b w Hb E Hh. apply kept_refl.
  - discriminate.
  - intros st b w Hb E Hh. subst x. inversion Hh; subst. destruct (IHeval b v Hb eq_refl) as (K1 & _); [assumption|].
    apply kept_trans with m1 s1; [now apply kept_weak|]. eapply IHeval0; eauto. destruct K1 as (_ & -> & _). exact Hb.
  - discriminate.
  - intros st b w Hb E Hh. subst x. inversion Hh as [| | |? ? Hf]; subst. destruct (Hf _ _ _ _ Hb e) as (F1 & F2 & F3).
    apply kept_trans with m s1; [|eapply IHeval; eauto]. split; [auto|]. split; [congruence|]. intros S _. auto.
  - discriminate.
Qed.

Lemma evals_kept l : forall m s m' s' b, evals_all C l m s m' s' -> s_input s = Some b -> Forall reading l ->
  kept True m s m' s' /\ Forall (fun r => exists v, RefEngine.lookup rid_eqb r m' = Some v) l.
Proof.
  intros m s m' s' b H. induction H as [m s|r l m s v m1 s1 m' s' E H IH]; intros Hb Hl; [split; [apply kept_refl|constructor]|].
  inversion Hl; subst. destruct (eval_kept _ _ _ _ _ _ E b v Hb eq_refl) as (K & L); [assumption|].
  destruct IH as (K2 & L2); [|assumption|]. { destruct K as (_ & -> & _). exact Hb. }
  split; [eapply kept_trans; eauto|]. constructor; [|exact L2]. exists v. destruct K2 as (K2 & _). auto.
Qed.

Definition skipped_or_read (m : memory) (o : attrs) : Prop :=
  exists c, RefEngine.lookup rid_eqb (f_unpack_if f0) m = Some c
    /\ (truthy c = true -> exists v, RefEngine.lookup rid_eqb (mkRid KUnpackValue i0) m = Some v)
    /\ (truthy c = false -> Marshal.lookup o n0 = Some VNone \/ exists v, RefEngine.lookup rid_eqb (mkRid KUnpackValue i0) m = Some v).
Lemma skipped_kept m s m' s' : kept True m s m' s' -> skipped_or_read m (s_obj s) -> skipped_or_read m' (s_obj s').
Proof.
  intros (K1 & K2 & K3) (c & A & B & D). exists c. split; [auto|]. split.
  - intros T. destruct (B T) as (v & Hv). eauto.
  - intros T. destruct (RefEngine.lookup rid_eqb (mkRid KUnpackValue i0) m') eqn:E; [eauto|]. left. rewrite K3 by auto.
    destruct (D T) as [G|(v & Hv)]; [exact G|]. rewrite (K1 _ _ Hv) in E. discriminate.
Qed.
Lemma set_kept i f m s : nth_error (k_fields C) i = Some f -> i <> i0 -> kept True m s m (mkBst (set_attr (s_obj s) (f_name f) VNone) (s_input s)).
Proof. intros H Hi. split; [auto|]. split; [reflexivity|]. intros _ _. cbn [s_obj]. apply lookup_set_other. eapply name_of; eauto. Qed.

Lemma unpacking_skips l : forall m s m' s' b, unpacking C l m s m' s' -> s_input s = Some b -> incl l (numbered C) ->
  (In i0 (map fst l) \/ skipped_or_read m (s_obj s)) -> NoDup (map fst l) -> skipped_or_read m' (s_obj s') /\ s_input s' = s_input s.
Proof.
  intros m s m' s' b H. induction H as [m s|i f l m s c m1 s1 m' s' E T H IH|i f l m s c m1 s1 m2 s2 m' s' E T E2 H IH]; intros Hb Hl Hin Hd.
  - destruct Hin as [[]|Hin]. auto.
  - pose proof (Hl (i, f) (or_introl eq_refl)) as Hif. apply numbered_in in Hif.
    destruct (eval_kept _ _ _ _ _ _ E b c Hb eq_refl) as (K & L); [apply plain_reading, (field_plain _ _ Hif)|].
    cbn [map fst] in Hd. inversion Hd as [|? ? Hni Hd']; subst.
    assert (Hb1 : s_input s1 = s_input s) by apply K. cbn [s_input] in IH. rewrite Hb1, Hb in IH.
    assert (G : In i0 (map fst l) \/ skipped_or_read m1 (set_attr (s_obj s1) (f_name f) VNone)).
    { destruct (Nat.eq_dec i i0) as [->|Hi].
      - right. assert (f = f0) by congruence. subst f. exists c. split; [exact L|]. split; [congruence|]. intros _. left. apply lookup_set_same.
      - destruct Hin as [[Hin|Hin]|Hin]; [contradiction|auto|]. right. eapply (skipped_kept m1 s1 m1 (mkBst _ (s_input s1))); [eapply set_kept; eauto|].
        eapply skipped_kept; eauto. }
    destruct (IH eq_refl (fun x Hx => Hl x (or_intror Hx)) G Hd') as (A & B). split; [exact A|]. rewrite B, Hb. reflexivity.
  - pose proof (Hl (i, f) (or_introl eq_refl)) as Hif. apply numbered_in in Hif.
    destruct (eval_kept _ _ _ _ _ _ E b c Hb eq_refl) as (K & L); [apply plain_reading, (field_plain _ _ Hif)|].
    assert (Hb1 : s_input s1 = s_input s) by apply K.
    destruct (evals_kept _ _ _ _ _ b E2) as (K2 & L2); [congruence|apply Forall_map, Forall_forall; intros; exact I|].
    assert (Hb2 : s_input s2 = s_input s1) by apply K2.
    cbn [map fst] in Hd. inversion Hd as [|? ? Hni Hd']; subst.
    assert (G : In i0 (map fst l) \/ skipped_or_read m2 (s_obj s2)).
    { destruct (Nat.eq_dec i i0) as [->|Hi].
      - right. assert (f = f0) by congruence. subst f. exists c. split; [apply K2, L|]. split; [|congruence]. intros _.
        rewrite map_app, Forall_app in L2. destruct L2 as (_ & L2). now inversion L2.
      - destruct Hin as [[Hin|Hin]|Hin]; [contradiction|auto|]. right. eapply skipped_kept; [exact K2|]. eapply skipped_kept; eauto. }
    destruct (IH ltac:(congruence) (fun x Hx => Hl x (or_intror Hx)) G Hd') as (A & B). split; [exact A|]. congruence.
Qed.
End Skipped.

(** Every field's condition is evaluated; a field whose condition is false is None unless something
    needed its value. *)
Theorem unpack_skips C b o n o' : plain C -> NoDup (map f_name (k_fields C)) -> buf_ok b -> buffer_unpack C b o = (Ok n, o') ->
  exists input m s m' s', input_buffer b = Ok input /\ unpacking C (numbered C) [] (mkBst o (Some input)) m s
    /\ eval rid_eqb (nodes C) (mkRid KTotal 0) m s (Ok (rnum n)) m' s' /\ o' = s_obj s'
    /\ forall i f, nth_error (k_fields C) i = Some f -> exists c, RefEngine.lookup rid_eqb (f_unpack_if f) m' = Some c
       /\ (truthy c = true -> exists v, RefEngine.lookup rid_eqb (mkRid KUnpackValue i) m' = Some v)
       /\ (truthy c = false -> Marshal.lookup o' (f_name f) = Some VNone
             \/ exists v, RefEngine.lookup rid_eqb (mkRid KUnpackValue i) m' = Some v).
Proof.
  intros Hp Hn Kb H. destruct (buffer_unpack_ok C b o n o' Kb H) as (_ & input & m & s & m' & s' & A1 & A2 & A3 & A4).
  exists input, m, s, m', s'. split; [exact A1|]. split; [exact A2|]. split; [exact A3|]. split; [exact A4|]. intros i f Hf.
  destruct (unpacking_skips C Hp Hn i f Hf _ _ _ _ _ input A2 eq_refl (incl_refl _)) as (B1 & B2).
  - left. apply (in_map fst _ (i, f)). now apply numbered_in.
  - unfold numbered. rewrite map_fst_combine by now rewrite seq_length. apply seq_NoDup.
  - cbn [s_input] in B2. destruct (eval_kept C Hp Hn i f Hf _ _ _ _ _ _ A3 input _ B2 eq_refl I) as (K & _). subst o'.
    exact (skipped_kept i f _ _ _ _ K B1).
Qed.

(** ** Conditions when packing *)
Lemma eval_grows (nodes : rid -> bprog) r m s x m' s' : eval rid_eqb nodes r m s x m' s' ->
  forall r' v, RefEngine.lookup rid_eqb r' m = Some v -> RefEngine.lookup rid_eqb r' m' = Some v.
Proof.
  intros H. induction H using eval_mut with
    (P0 := fun p m s x m' s' _ => forall r' v, RefEngine.lookup rid_eqb r' m = Some v -> RefEngine.lookup rid_eqb r' m' = Some v); eauto.
  intros r' w E'. cbn [RefEngine.lookup]. destruct (rid_eqb r' r) eqn:E; [|auto]. apply rid_eqb_spec in E. congruence.
Qed.
Lemma eval_result (nodes : rid -> bprog) r m s v m' s' : eval rid_eqb nodes r m s (Ok v) m' s' -> RefEngine.lookup rid_eqb r m' = Some v.
Proof.
  intros H. inversion H; subst; [assumption|]. cbn [RefEngine.lookup]. now rewrite (proj2 (rid_eqb_spec r r) eq_refl).
Qed.

(** Memory [m] has the condition of field [f], number [i]; if it holds, [p] is its packed value and
    its position, otherwise nothing. *)
Definition part_of (m : memory) (i : nat) (f : field) (p : BufferSpec.part) : Prop :=
  exists c, RefEngine.lookup rid_eqb (f_pack_if f) m = Some c
    /\ (truthy c = false -> p = None)
    /\ (truthy c = true -> exists b r, p = Some (b, r) /\ RefEngine.lookup rid_eqb (mkRid KPack i) m = Some (RBuf b)
          /\ RefEngine.lookup rid_eqb (mkRid KPackPos i) m = Some (RRanges r)).
Lemma part_of_grows (m m' : memory) i f p : (forall r v, RefEngine.lookup rid_eqb r m = Some v -> RefEngine.lookup rid_eqb r m' = Some v) ->
  part_of m i f p -> part_of m' i f p.
Proof.
  intros G (c & A & B & D). exists c. split; [auto|]. split; [auto|]. intros T. destruct (D T) as (b & r & E1 & E2 & E3). exists b, r. auto.
Qed.
Lemma packing_grows C l m s ps m' s' : packing C l m s ps m' s' ->
  (forall r v, RefEngine.lookup rid_eqb r m = Some v -> RefEngine.lookup rid_eqb r m' = Some v).
Proof. intros H. induction H; eauto using eval_grows. Qed.
Lemma packing_parts C l m s ps m' s' : packing C l m s ps m' s' -> Forall2 (fun q p => part_of m' (fst q) (snd q) p) l ps.
Proof.
  intros H. induction H as [m s|i f l m s c m1 s1 ps m' s' E T H IH|i f l m s c m1 s1 b m2 s2 r m3 s3 ps m' s' E T E2 E3 H IH]; constructor; auto; cbn [fst snd];
    pose proof (packing_grows _ _ _ _ _ _ _ H) as G.
  - exists c. split; [apply G; eapply eval_result; eauto|]. split; [auto|congruence].
  - exists c. split; [apply G, (eval_grows _ _ _ _ _ _ _ E3), (eval_grows _ _ _ _ _ _ _ E2); eapply eval_result; eauto|]. split; [congruence|]. intros _.
    exists b, r. split; [reflexivity|]. split; [apply G, (eval_grows _ _ _ _ _ _ _ E3); eapply eval_result; eauto|]. apply G. eapply eval_result; eauto.
Qed.

(** A constant reference cannot fail. *)
Section Constant.
Variable C : cls.
Let nodes := nodes C.
Lemma asks_pure p m s r m' s' : asks rid_eqb nodes p m s r m' s' -> forall w n, pure_prog nodes p w n -> RefStatic.agree rid_eqb nodes m ->
  exists v k, pure nodes r v k /\ (k <= n)%nat /\ RefStatic.agree rid_eqb nodes m'.
Proof.
  intros H. induction H as [r k m s|r k m s v m1 s1 r' m' s' E H IH|f k m s v s1 r' m' s' E H IH]; intros w n Hp Ha; inversion Hp; subst.
  - do 2 eexists. split; [eassumption|]. split; [lia|exact Ha].
  - destruct (eval_agree C _ _ _ _ _ _ E Ha) as (A1 & A2). match goal with X : pure nodes r _ _ |- _ => pose proof (A2 _ _ X) as EV end. inversion EV; subst.
    match goal with X : pure_prog nodes (k _) _ _ |- _ => destruct (IH _ _ X A1) as (v' & k' & P & L & A') end. exists v', k'. split; [exact P|]. split; [lia|exact A'].
Qed.
Lemma needs_pure l r m s r' m' s' : needs rid_eqb nodes l r m s r' m' s' -> forall w n, pure nodes r w n -> RefStatic.agree rid_eqb nodes m ->
  exists v k, pure nodes r' v k /\ (l = [] -> k = n) /\ (forall x, In x l -> exists v' k', pure nodes x v' k' /\ (k < k')%nat) /\ (k <= n)%nat.
Proof.
  intros H. induction H as [r m s|r m s r1 m1 s1 l r' m' s' E A H IH]; intros w n Hp Ha.
  - exists w, n. split; [exact Hp|]. split; [auto|]. split; [intros x []|lia].
  - inversion Hp as [? ? n' Hq]; subst. destruct (asks_pure _ _ _ _ _ _ A _ _ Hq Ha) as (v1 & k1 & P1 & L1 & A1).
    destruct (IH _ _ P1 A1) as (v & k & P & _ & F & L). exists v, k. split; [exact P|]. split; [discriminate|]. split; [|lia].
    intros x [<-|Hx]; [|auto]. exists w, (S n'). split; [exact Hp|lia].
Qed.
Lemma constant_not_fails r v m s e : static nodes r v -> RefStatic.agree rid_eqb nodes m ->
  ~ ((exists m' s', eval rid_eqb nodes r m s (Err e) m' s') \/ (e = CyclicReferenceError /\ loops rid_eqb nodes r m s)).
Proof.
  intros (n & Hp) Ha [(m' & s' & E)|(_ & l & r' & m' & s' & N & Hin)].
  - destruct (eval_agree C _ _ _ _ _ _ E Ha) as (_ & G). pose proof (G _ _ Hp). discriminate.
  - destruct (needs_pure _ _ _ _ _ _ _ N _ _ Hp Ha) as (v1 & k & P & _ & F & _). destruct (F r' Hin) as (v2 & k2 & P2 & L).
    destruct (pure_det _ _ _ _ P _ _ P2) as (_ & ->). lia.
Qed.
End Constant.
Lemma packing_agree C l m s ps m' s' : packing C l m s ps m' s' -> RefStatic.agree rid_eqb (nodes C) m -> RefStatic.agree rid_eqb (nodes C) m'.
Proof.
  intros H. induction H as [m s|i f l m s c m1 s1 ps m' s' E T H IH|i f l m s c m1 s1 b m2 s2 r m3 s3 ps m' s' E T E2 E3 H IH]; auto; intros Ha; apply IH.
  - eapply eval_agree; eauto.
  - eapply eval_agree; [exact E3|]. eapply eval_agree; [exact E2|]. eapply eval_agree; [exact E|]. exact Ha.
Qed.

Lemma total_not_fails C n m s e : k_size C = Some n -> ~ fails C (mkRid KTotal 0) m s e.
Proof.
  intros Hn. assert (T : nodes C (mkRid KTotal 0) = PCtx (fun s => (Ok (rnum n), s)) (fun z => match z with
      | RVal VNone => if_pack (ev_refs (map (fun p => mkRid KPackPos (fst p)) (numbered C)) (fun l =>
             ret (let* ls := rmap_list as_ranges l in opt_num (list_max_stop (List.concat ls)))))
          (unpack_ends (numbered C) (fun l => match l with [] => PRaise ValueError | x :: r => PRet (rnum (fold_left Z.max r x)) end))
      | _ => PRet z end)) by (unfold nodes, total_prog; cbn [r_kind]; now rewrite Hn).
  assert (Z : rnum n <> RVal VNone) by (unfold rnum; destruct (_ =? _); discriminate).
  intros [(m' & s' & F)|(_ & l & r' & m' & s' & N & Hin)].
  - inversion F as [| |? ? ? ? ? ? _ X]; subst. rewrite T in X. inversion X as [| | | |? ? ? ? v s1 ? ? ? E1 E2|? ? ? ? ? ? E1]; subst; [|discriminate].
    apply pair_equal_spec in E1. destruct E1 as (E1 & <-). inversion E1; subst. destruct (rnum n) as [[]| | | |]; [now destruct Z|inversion E2..].
  - inversion N as [|? ? ? r1 m1 s1 ? ? ? ? _ A]; subst; [destruct Hin|]. rewrite T in A.
    inversion A as [| |? ? ? ? v s2 ? ? ? E1 E2]; subst. apply pair_equal_spec in E1. destruct E1 as (E1 & <-). inversion E1; subst.
    destruct (rnum n) as [[]| | | |]; [now destruct Z|inversion E2..].
Qed.

(** A field with a constant condition and a constant position behind the size of the class. *)
Lemma pack_behind_size C n i f r e o bytes o' : packers_ok C -> k_size C = Some n -> n <> 0 -> nth_error (k_fields C) i = Some f ->
  (exists c, static (nodes C) (f_pack_if f) c /\ truthy c = true) ->
  static (nodes C) (mkRid KPackPos i) (RRanges r) -> (exists x, In x r /\ r_stop x = Some e) -> 8 * ((n + 7) / 8) < e ->
  buffer_pack C o <> (Ok bytes, o').
Proof.
  intros Hp Hn N Hf (c & Sc & Tc) Sr (x & X1 & X2) He H.
  destruct (buffer_pack_ok C o bytes o' Hp H) as (ps & m & bits & P & _ & O & T & _).
  pose proof (packing_parts _ _ _ _ _ _ _ P) as F. pose proof (packing_agree _ _ _ _ _ _ _ P (RefStatic.agree_nil _ _)) as A.
  apply Forall2_nth_iff in F. destruct F as (L & F). apply numbered_in in Hf. apply In_nth_error in Hf. destruct Hf as (j & Hj).
  destruct (nth_error ps j) as [p|] eqn:Ep; [|apply nth_error_None in Ep; assert (j < List.length (numbered C))%nat by (apply nth_error_Some; congruence); lia].
  destruct (F j _ _ Hj Ep) as (c' & C1 & _ & C2). cbn [fst snd] in *. destruct Sc as (k1 & Sc). pose proof (A _ _ _ _ C1 Sc). subst c'.
  destruct (C2 Tc) as (b & r' & -> & _ & R2). destruct Sr as (k2 & Sr). pose proof (A _ _ _ _ R2 Sr) as E. injection E as ->.
  destruct O as ((O1 & _) & _). specialize (O1 x e). assert (In x (part_ranges ps)) as Hx.
  { unfold part_ranges. apply in_flat_map. exists (Some (b, r)). split; [eapply nth_error_In; eauto|exact X1]. }
  specialize (O1 Hx X2). destruct (bytes_of_bits_spec bits) as (_ & S2 & _). apply T. unfold too_long. rewrite Hn. split; [exact N|]. rewrite S2.
  unfold cdiv8. lia.
Qed.

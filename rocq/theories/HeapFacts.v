(** Facts about sharing. *)
From Verif Require Import Base Marshal Heap HeapSpec.
From Coq Require Import ZArith List Bool String Lia.
Import ListNotations.

(** ** Lists *)
Lemma set_nth_length {A} (l : list A) : forall k x, List.length (set_nth l k x) = List.length l.
Proof. induction l as [|y l IH]; intros [|k] x; cbn; auto. Qed.
Lemma set_nth_same {A} (l : list A) : forall k x, (k < List.length l)%nat -> nth_error (set_nth l k x) k = Some x.
Proof. induction l as [|y l IH]; intros [|k] x H; cbn in *; try lia; [reflexivity|]. apply IH. lia. Qed.
Lemma set_nth_other {A} (l : list A) : forall k x j, j <> k -> nth_error (set_nth l k x) j = nth_error l j.
Proof. induction l as [|y l IH]; intros [|k] x [|j] H; cbn; try easy. apply IH. lia. Qed.
Lemma nth_app_l {A} (l r : list A) k : (k < List.length l)%nat -> nth_error (l ++ r) k = nth_error l k.
Proof. apply nth_error_app1. Qed.
Lemma nth_app_new {A} (l : list A) x : nth_error (l ++ [x]) (List.length l) = Some x.
Proof. rewrite nth_error_app2 by lia. now rewrite Nat.sub_diag. Qed.
Lemma nth_lt {A} (l : list A) k x : nth_error l k = Some x -> (k < List.length l)%nat.
Proof. intros H. apply nth_error_Some. congruence. Qed.
Lemma combine_snd {A B} (a : list A) : forall (b : list B) c, In c (map snd (combine a b)) -> In c b.
Proof. induction a as [|x a IH]; intros [|y b] c H; cbn in *; try easy. destruct H as [->|H]; auto. Qed.

Lemma dget_dset_same d n c : dget (dset d n c) n = Some c.
Proof. induction d as [|[m x] d IH]; cbn; [now rewrite String.eqb_refl|]. destruct (String.eqb m n) eqn:E; cbn; now rewrite E. Qed.
Lemma dget_dset_other d n m c : n <> m -> dget (dset d n c) m = dget d m.
Proof.
  intros N. induction d as [|[k x] d IH]; cbn.
  - destruct (String.eqb_spec n m); [easy|reflexivity].
  - destruct (String.eqb_spec k n) as [->|]; cbn; [now destruct (String.eqb_spec n m)|]. now rewrite IH.
Qed.
Lemma dget_in d n c : dget d n = Some c -> In c (map snd d).
Proof. induction d as [|[m x] d IH]; cbn; [discriminate|]. destruct (String.eqb m n); [intros [= ->]; now left|auto]. Qed.
Lemma dset_in d n c x : In x (map snd (dset d n c)) -> x = c \/ In x (map snd d).
Proof. induction d as [|[m y] d IH]; cbn; [intuition|]. destruct (String.eqb m n); cbn; intuition. Qed.

(** ** Ownership *)
Lemma copied o : match o with HList _ | HDict _ | HBytes _ => True | HInst _ => False end -> has_copy o = true.
Proof. now destruct o. Qed.
Section Owner.
Variables (fs : fields_of_class) (h0 : heap) (grp : nat -> nat).
Hypothesis Hfs : Forall (fun f => plain_default h0 (snd f)) fs.

(** [None]: part of the class; [Some g]: belongs to group [g] of instances. *)
Definition owned (own : list (option nat)) (g : nat) (c : cell) : Prop :=
  match c with CVal _ => True | CRef l => nth_error own l = Some (Some g) end.
Record inv (own : list (option nat)) (s : state) : Prop := {
  iv_len : List.length own = List.length (hp s);
  iv_inst : forall i d c, nth_error (insts s) i = Some d -> In c (map snd d) -> owned own (grp i) c;
  iv_obj : forall l o g c, nth_error (hp s) l = Some o -> nth_error own l = Some (Some g) -> In c (cells_of o) -> owned own g c;
  iv_class : forall l, (l < List.length h0)%nat -> nth_error own l = Some None /\ nth_error (hp s) l = nth_error h0 l
}.
Lemma owned_app own x g c : owned own g c -> owned (own ++ x) g c.
Proof. destruct c as [v|l]; cbn; [auto|]. intros H. rewrite nth_app_l; [exact H|]. eapply nth_lt; eauto. Qed.
Lemma inv_start : inv (map (fun _ => None) h0) (start h0).
Proof.
  split; cbn [hp insts start].
  - apply map_length.
  - intros i d c H. now destruct i.
  - intros l o g c _ H. apply nth_error_In, in_map_iff in H as (? & ? & ?). discriminate.
  - intros l H. split; [|reflexivity]. rewrite nth_error_map. destruct (nth_error h0 l) eqn:E; [reflexivity|]. apply nth_error_None in E. lia.
Qed.
Lemma inv_alloc own s o g : inv own s -> Forall (owned own g) (cells_of o) -> inv (own ++ [Some g]) (mkState (hp s ++ [o]) (insts s)).
Proof.
  intros [L I O C] F. split; cbn [hp insts].
  - rewrite !app_length. cbn. lia.
  - intros i d c Hi Hc. apply owned_app. eauto.
  - intros l o' g' c Hl Ho Hc. destruct (Nat.eq_dec l (List.length (hp s))) as [->|N].
    + rewrite nth_app_new in Hl. injection Hl as <-. rewrite <- L, nth_app_new in Ho. injection Ho as <-. apply owned_app. rewrite Forall_forall in F. auto.
    + pose proof (nth_lt _ _ _ Hl) as B. rewrite app_length in B. cbn in B. rewrite nth_app_l in Hl by lia. rewrite nth_app_l in Ho by lia. apply owned_app. eauto.
  - intros l Hl. destruct (C l Hl) as [C1 C2]. pose proof (nth_lt _ _ _ C1). split; rewrite nth_app_l by lia; [exact C1|exact C2].
Qed.
Lemma alloc_owned own s o g : inv own s -> owned (own ++ [Some g]) g (snd (alloc (hp s) o)).
Proof. intros [L _ _ _]. cbn. rewrite <- L. apply nth_app_new. Qed.
Lemma walk_owned own s g steps : inv own s -> forall c c', owned own g c -> walk (hp s) c steps = Some c' -> owned own g c'.
Proof.
  intros V. induction steps as [|k r IH]; intros c c' O W; cbn in W; [injection W as <-; exact O|]. destruct c as [v|l]; [discriminate|].
  destruct (nth_error (hp s) l) as [o|] eqn:E; [|discriminate]. destruct (nth_error (cells_of o) k) as [c1|] eqn:E1; [|discriminate].
  apply (IH c1); [|exact W]. eapply iv_obj; eauto. eapply nth_error_In; eauto.
Qed.
Lemma path_owned own s p c : inv own s -> eval_path s p = Some c -> owned own (grp (p_inst p)) c.
Proof.
  intros V. unfold eval_path, attr. destruct (nth_error (insts s) (p_inst p)) as [d|] eqn:E; [|discriminate].
  destruct (dget d (p_attr p)) as [c0|] eqn:E0; [|discriminate]. intros W. eapply walk_owned; eauto. eapply iv_inst; eauto. eapply dget_in; eauto.
Qed.
Definition src_of (g : nat) (x : src) : Prop := match x with SPath p => grp (p_inst p) = g | _ => True end.
(** Old locations keep their owner and their contents while the members of something are worked out. *)
Definition grows (own own' : list (option nat)) (g : nat) (s s' : state) : Prop :=
  inv own' s' /\ insts s' = insts s /\ exists k hs, List.length hs = k /\ own' = own ++ repeat (Some g) k /\ hp s' = hp s ++ hs.
Lemma grows_refl own g s : inv own s -> grows own own g s s.
Proof. intros V. split; [exact V|]. split; [reflexivity|]. exists 0%nat, []. cbn. now rewrite !app_nil_r. Qed.
Lemma grows_trans own1 own2 own3 g s1 s2 s3 : grows own1 own2 g s1 s2 -> grows own2 own3 g s2 s3 -> grows own1 own3 g s1 s3.
Proof.
  intros (V1 & I1 & k1 & x1 & L1 & O1 & H1) (V2 & I2 & k2 & x2 & L2 & O2 & H2). split; [exact V2|]. split; [congruence|].
  exists (k1 + k2)%nat, (x1 ++ x2). rewrite app_length, repeat_app, L1, L2, O2, O1, H2, H1, !app_assoc. auto.
Qed.
Lemma grows_owned own own' g s s' c g' : grows own own' g s s' -> owned own g' c -> owned own' g' c.
Proof. intros (_ & _ & k & x & _ & -> & _). apply owned_app. Qed.
Lemma eval_src_grows own g s x : inv own s -> src_of g x ->
  exists own', grows own own' g s (mkState (fst (eval_src s x)) (insts s)) /\ forall c, snd (eval_src s x) = Some c -> owned own' g c.
Proof.
  intros V. destruct x as [v|t|p]; cbn [src_of eval_src fst snd]; intros Sx.
  - exists own. destruct s. split; [now apply grows_refl|]. intros c [= <-]. exact I.
  - exists (own ++ [Some g]). split.
    + split; [apply inv_alloc; [exact V|]|].
      * destruct t; cbn; try rewrite map_map; apply Forall_forall; intros c Hc; try (apply in_map_iff in Hc as (? & <- & _)); try exact I; try easy.
      * split; [reflexivity|]. exists 1%nat, [build t]. auto.
    + intros c [= <-]. exact (alloc_owned own s (build t) g V).
  - exists own. destruct s. split; [now apply grows_refl|]. intros c E. rewrite <- Sx. eapply path_owned; eauto.
Qed.
Lemma eval_srcs_grows g xs : forall own s, inv own s -> Forall (src_of g) xs ->
  exists own', grows own own' g s (mkState (fst (eval_srcs s xs)) (insts s)) /\ forall cs, snd (eval_srcs s xs) = Some cs -> Forall (owned own' g) cs.
Proof.
  induction xs as [|x xs IH]; intros own s V F.
  - exists own. destruct s. split; [now apply grows_refl|]. intros cs [= <-]. constructor.
  - inversion F as [|? ? Fx Fr]; subst. cbn [eval_srcs]. destruct (eval_src_grows own g s x V Fx) as (o1 & G1 & C1).
    destruct (eval_src s x) as [h [c|]] eqn:E; cbn [fst snd] in *.
    + pose proof G1 as (V1 & _). destruct (IH o1 _ V1 Fr) as (o2 & G2 & C2). cbn [insts] in *. exists o2. split.
      * destruct (eval_srcs (mkState h (insts s)) xs) as [h' [cs|]] eqn:E2; cbn [fst] in *; eapply grows_trans; eauto.
      * destruct (eval_srcs (mkState h (insts s)) xs) as [h' [cs|]] eqn:E2; cbn [fst snd] in *; [|discriminate].
        intros cs' [= <-]. constructor; [eapply grows_owned; eauto|now apply C2].
    + exists o1. split; [exact G1|discriminate].
Qed.
Lemma new_struct_grows g kw : forall l own s d, Forall (fun f => plain_default h0 (snd f)) l -> inv own s ->
  Forall (owned own g) (map snd kw) -> Forall (owned own g) (map snd d) ->
  exists own', grows own own' g s (mkState (fst (new_struct l kw (hp s) d)) (insts s))
    /\ Forall (owned own' g) (map snd (snd (new_struct l kw (hp s) d))).
Proof.
  induction l as [|[n def] l IH]; intros own s d P V K D; cbn [new_struct].
  - exists own. destruct s. split; [now apply grows_refl|exact D].
  - inversion P as [|? ? P1 P2]; subst. cbn [snd] in P1. destruct (dget kw n) as [c|] eqn:Ek.
    + apply IH; auto. apply Forall_forall. intros x Hx. apply dset_in in Hx as [->|Hx]; [|rewrite Forall_forall in D; auto].
      rewrite Forall_forall in K. apply K. eapply dget_in; eauto.
    + destruct (dget d n) as [c|] eqn:Ed; [now apply IH|]. destruct def as [v|l0]; cbn [copy_if_supported].
      * apply IH; auto. apply Forall_forall. intros x Hx. apply dset_in in Hx as [->|Hx]; [exact I|rewrite Forall_forall in D; auto].
      * destruct P1 as (o & E0 & Fl & Hc). apply copied in Hc. destruct (iv_class _ _ V l0 (nth_lt _ _ _ E0)) as [_ E1]. rewrite E1, E0, Hc. cbn [alloc].
        assert (V1 : inv (own ++ [Some g]) (mkState (hp s ++ [o]) (insts s))).
        { apply inv_alloc; [exact V|]. eapply Forall_impl; [|exact Fl]. intros [v|?]; cbn; easy. }
        destruct (IH _ _ (dset d n (CRef (List.length (hp s)))) P2 V1) as (o2 & G2 & C2).
        -- eapply Forall_impl; [|exact K]. intros c. apply owned_app.
        -- apply Forall_forall. intros x Hx. apply dset_in in Hx as [->|Hx].
           ++ exact (alloc_owned own s o g V).
           ++ apply owned_app. rewrite Forall_forall in D. auto.
        -- exists o2. cbn [hp insts] in *. split; [|exact C2]. eapply grows_trans; [|exact G2]. split; [exact V1|]. split; [reflexivity|]. exists 1%nat, [o]. auto.
Qed.

(** ** One operation *)
Definition allowed (o : op) : Prop :=
  match o with
  | ONew kw => Forall (fun x => match x with SPath p => forall i, grp (p_inst p) = grp i | _ => True end) (map snd kw)
  | OSet i _ x => src_of (grp i) x
  | OChange p ch => Forall (src_of (grp (p_inst p))) (change_srcs ch)
  end.
(** The group whose objects an operation may change. *)
Definition actor (s : state) (o : op) : nat :=
  grp (match o with ONew _ => List.length (insts s) | OSet i _ _ => i | OChange p _ => p_inst p end).
Lemma step_inv own s o : inv own s -> allowed o ->
  exists own', inv own' (step (new_struct fs) s o)
    /\ (forall l x, nth_error own l = Some x -> nth_error own' l = Some x)
    /\ (forall l g, nth_error own l = Some (Some g) -> g <> actor s o -> nth_error (hp (step (new_struct fs) s o)) l = nth_error (hp s) l)
    /\ (forall j d, nth_error (insts s) j = Some d -> match o with OSet i _ _ => i <> j | _ => True end -> nth_error (insts (step (new_struct fs) s o)) j = Some d).
Proof.
  intros V A.
  assert (Gk : forall own' g s', grows own own' g s s' ->
    (forall l x, nth_error own l = Some x -> nth_error own' l = Some x) /\ (forall l x, nth_error own l = Some x -> nth_error (hp s') l = nth_error (hp s) l)).
  { intros own' g s' (_ & _ & k & x & _ & -> & E). split; intros l y Hl; pose proof (nth_lt _ _ _ Hl) as B.
    - rewrite nth_app_l by exact B. exact Hl.
    - rewrite E. apply nth_app_l. rewrite <- (iv_len _ _ V). exact B. }
  destruct o as [kw|i n x|p ch]; cbn [allowed actor step] in *.
  - set (g := grp (List.length (insts s))).
    assert (A' : Forall (src_of g) (map snd kw)). { eapply Forall_impl; [|exact A]. intros [v|t|p]; cbn; try exact (fun _ => I). intros Hp. exact (Hp _). }
    destruct (eval_srcs_grows g _ own s V A') as (o1 & G1 & C1). destruct (eval_srcs s (map snd kw)) as [h [cs|]] eqn:E; cbn [fst snd] in *.
    + specialize (C1 cs eq_refl). pose proof G1 as (V1 & _).
      destruct (new_struct_grows g (combine (map fst kw) cs) fs o1 _ [] Hfs V1) as (o2 & G2 & C2); [|constructor|].
      { apply Forall_forall. intros c Hc. rewrite Forall_forall in C1. apply C1. eapply combine_snd; eauto. }
      cbn [hp insts] in *. destruct (new_struct fs (combine (map fst kw) cs) h []) as [h' d] eqn:E2. cbn [fst snd] in *.
      pose proof (grows_trans _ _ _ _ _ _ _ G1 G2) as G. destruct (Gk _ _ _ G) as [K1 K2]. destruct G2 as (V2 & _). cbn [hp insts] in *.
      exists o2. split; [|split; [exact K1|split; [intros l g' Hl _; exact (K2 l _ Hl)|]]].
      * destruct V2 as [L2 I2 O2 Cl2]. split; cbn [hp insts] in *; auto. intros i d' c Hi Hc. destruct (Nat.eq_dec i (List.length (insts s))) as [->|N].
        -- rewrite nth_app_new in Hi. injection Hi as <-. rewrite Forall_forall in C2. now apply C2.
        -- pose proof (nth_lt _ _ _ Hi) as B. rewrite app_length in B. cbn in B. rewrite nth_app_l in Hi by lia. eauto.
      * intros j d' Hj _. rewrite nth_app_l by (eapply nth_lt; eauto). exact Hj.
    + destruct (Gk _ _ _ G1) as [K1 K2]. exists o1. split; [apply G1|]. split; [exact K1|]. split; [intros l g' Hl _; exact (K2 l _ Hl)|]. auto.
  - destruct (eval_src_grows own (grp i) s x V A) as (o1 & G1 & C1). destruct (Gk _ _ _ G1) as [K1 K2].
    destruct (eval_src s x) as [h [c|]] eqn:E; cbn [fst snd] in *.
    + specialize (C1 c eq_refl). destruct (nth_error (insts s) i) as [d|] eqn:Ei.
      * exists o1. split; [|split; [exact K1|split; [intros l g' Hl _; exact (K2 l _ Hl)|]]].
        -- destruct G1 as ([L1 I1 O1 Cl1] & _). split; cbn [hp insts] in *; auto. intros j d' c' Hj Hc. destruct (Nat.eq_dec j i) as [->|N].
           ++ rewrite set_nth_same in Hj by (eapply nth_lt; eauto). injection Hj as <-. apply dset_in in Hc as [->|Hc]; [exact C1|eauto].
           ++ rewrite set_nth_other in Hj by exact N. eauto.
        -- intros j d' Hj N. cbn [insts]. rewrite set_nth_other by congruence. exact Hj.
      * exists o1. split; [apply G1|]. split; [exact K1|]. split; [intros l g' Hl _; exact (K2 l _ Hl)|]. auto.
    + exists o1. destruct (nth_error (insts s) i); (split; [apply G1|]; split; [exact K1|]; split; [intros l g' Hl _; exact (K2 l _ Hl)|]; auto).
  - destruct (eval_path s p) as [[v|l]|] eqn:Ep; try (exists own; split; [exact V|]; auto).
    pose proof (path_owned _ _ _ _ V Ep) as Op. cbn [owned] in Op.
    destruct (eval_srcs_grows _ _ own s V A) as (o1 & G1 & C1). destruct (Gk _ _ _ G1) as [K1 K2].
    destruct (eval_srcs s (change_srcs ch)) as [h [cs|]] eqn:E; cbn [fst snd] in *.
    + specialize (C1 cs eq_refl). assert (Keep : exists own', inv own' (mkState h (insts s)) /\ (forall l x, nth_error own l = Some x -> nth_error own' l = Some x)
        /\ (forall l0 g, nth_error own l0 = Some (Some g) -> g <> grp (p_inst p) -> nth_error h l0 = nth_error (hp s) l0)
        /\ (forall j d, nth_error (insts s) j = Some d -> True -> nth_error (insts s) j = Some d)).
      { exists o1. split; [apply G1|]. split; [exact K1|]. split; [intros l0 g' Hl _; exact (K2 l0 _ Hl)|]. auto. }
      destruct (nth_error h l) as [o|] eqn:El; [|exact Keep]. destruct (apply_change ch cs o) as [o'|] eqn:Ea; [|exact Keep].
      exists o1. split; [|split; [exact K1|split; cbn [hp insts]; [|auto]]].
      * assert (Oc : forall c, In c (cells_of o') -> owned o1 (grp (p_inst p)) c).
        { intros c Hc. rewrite Forall_forall in C1. apply C1. destruct ch, o; try discriminate; injection Ea as <-; cbn in Hc; auto; try easy; eapply combine_snd; eauto. }
        destruct G1 as ([L1 I1 O1 Cl1] & _). cbn [hp insts] in *. split; cbn [hp insts] in *; auto.
        -- now rewrite set_nth_length.
        -- intros l1 o2 g c Hl Hg Hc. destruct (Nat.eq_dec l1 l) as [->|N].
           ++ rewrite set_nth_same in Hl by (eapply nth_lt; eauto). injection Hl as <-. rewrite (K1 _ _ Op) in Hg. injection Hg as <-. auto.
           ++ rewrite set_nth_other in Hl by exact N. eauto.
        -- intros l1 Hl. destruct (Cl1 l1 Hl) as [X Y]. split; [exact X|]. rewrite set_nth_other; [exact Y|]. intros ->. rewrite (K1 _ _ Op) in X. discriminate.
      * intros l1 g Hl Ng. rewrite set_nth_other; [exact (K2 _ _ Hl)|]. intros ->. rewrite Op in Hl. injection Hl as <-. easy.
    + exists o1. split; [apply G1|]. split; [exact K1|]. split; [intros l0 g' Hl _; exact (K2 l0 _ Hl)|]. auto.
Qed.
Lemma run_inv ops : forall own s, inv own s -> Forall allowed ops -> exists own', inv own' (run (new_struct fs) ops s).
Proof.
  induction ops as [|o ops IH]; intros own s V F; [now exists own|]. inversion F as [|? ? F1 F2]; subst.
  destruct (step_inv own s o V F1) as (o1 & V1 & _). exact (IH o1 _ V1 F2).
Qed.

(** ** Looking *)
Lemma look_same own g h h' : (forall l, nth_error own l = Some (Some g) -> nth_error h' l = nth_error h l) ->
  (forall l o c, nth_error h l = Some o -> nth_error own l = Some (Some g) -> In c (cells_of o) -> owned own g c) ->
  forall d c, owned own g c -> look d h' c = look d h c.
Proof.
  intros E O. induction d as [|d IH]; intros [v|l] W; cbn [look]; try reflexivity. cbn [owned] in W. rewrite (E l W).
  destruct (nth_error h l) as [[cs|bs|kvs|kvs]|] eqn:El; try reflexivity; f_equal; apply map_ext_in.
  - intros c Hc. apply IH. exact (O l _ c El W Hc).
  - intros [k c] Hc. cbn [fst snd]. f_equal. apply IH. apply (O l _ c El W). cbn. apply in_map_iff. now exists (k, c).
  - intros [k c] Hc. cbn [fst snd]. f_equal. apply IH. apply (O l _ c El W). cbn. apply in_map_iff. now exists (k, c).
Qed.
Lemma step_elsewhere own s o j d : inv own s -> allowed o -> grp j <> actor s o -> (j < List.length (insts s))%nat ->
  match o with OSet i _ _ => i <> j | _ => True end -> seen d (step (new_struct fs) s o) j = seen d s j.
Proof.
  intros V A N B M. destruct (step_inv own s o V A) as (o1 & V1 & K1 & K2 & K3). unfold seen.
  destruct (nth_error (insts s) j) as [dj|] eqn:E; [|apply nth_error_None in E; lia]. rewrite (K3 _ _ E M). f_equal. apply map_ext_in. intros [n c] Hc. cbn [fst snd]. f_equal.
  apply (look_same own (grp j)).
  - intros l Hl. apply (K2 l (grp j) Hl). exact N.
  - intros l o' c' Hl Hg Hc'. eapply iv_obj; eauto.
  - eapply iv_inst; eauto. apply in_map_iff. now exists (n, c).
Qed.
End Owner.

(** ** Struct defaults *)
Lemma look_plain h0 h c d : plain_default h0 c -> (forall l, (l < List.length h0)%nat -> nth_error h l = nth_error h0 l) -> look d h c = look d h0 c.
Proof.
  intros P H. destruct d as [|d], c as [v|l]; cbn [look]; try reflexivity. destruct P as (o & E & Fl & _).
  rewrite (H l (nth_lt _ _ _ E)), E. assert (X : forall c, In c (cells_of o) -> look d h c = look d h0 c).
  { intros c Hc. rewrite Forall_forall in Fl. specialize (Fl c Hc). destruct c; [now destruct d|easy]. }
  destruct o as [cs|bs|kvs|kvs]; try reflexivity; f_equal; apply map_ext_in.
  - intros c Hc. now apply X.
  - intros [k c] Hc. cbn [fst snd]. f_equal. apply X. cbn. apply in_map_iff. now exists (k, c).
  - intros [k c] Hc. cbn [fst snd]. f_equal. apply X. cbn. apply in_map_iff. now exists (k, c).
Qed.
Lemma keeps_allowed o : keeps_apart o -> allowed (fun i => i) o.
Proof.
  destruct o as [kw|i n x|p ch]; cbn [keeps_apart allowed].
  - intros H. eapply Forall_impl; [|exact H]. now intros [v|t|p].
  - now destruct x.
  - intros H. eapply Forall_impl; [|exact H]. now intros [v|t|q].
Qed.
Lemma any_allowed o : allowed (fun _ => 0%nat) o.
Proof. destruct o as [kw|i n x|p ch]; cbn; [| destruct x; cbn; auto|]; apply Forall_forall; intros [v|t|q] _; cbn; auto. Qed.

(** A new instance made without arguments. *)
Lemma new_struct_fresh h0 fs : forall h d, NoDup (map fst fs) -> Forall (fun f => plain_default h0 (snd f)) fs ->
  (forall l, (l < List.length h0)%nat -> nth_error h l = nth_error h0 l) -> (List.length h0 <= List.length h)%nat -> (forall n, In n (map fst fs) -> dget d n = None) ->
  let h' := fst (new_struct fs [] h d) in let d' := snd (new_struct fs [] h d) in
  (exists x, h' = h ++ x) /\ (forall n, ~ In n (map fst fs) -> dget d' n = dget d n)
  /\ forall n c, In (n, c) fs -> exists c', dget d' n = Some c' /\ (forall k, look k h' c' = look k h0 c)
       /\ match c' with CVal _ => True | CRef l => (List.length h <= l)%nat end.
Proof.
  induction fs as [|[n def] fs IH]; intros h d N P E B D; cbn [new_struct dget].
  - cbn [fst snd]. split; [exists []; now rewrite app_nil_r|]. split; [reflexivity|easy].
  - cbn [map fst] in *. inversion N as [|? ? N1 N2]; subst. inversion P as [|? ? P1 P2]; subst. cbn [snd] in P1. rewrite (D n (or_introl eq_refl)).
    assert (Dn : forall c m, In m (map fst fs) -> dget (dset d n c) m = None).
    { intros c m Hm. rewrite dget_dset_other; [apply D; now right|]. intros ->. contradiction. }
    destruct def as [v|l0]; cbn [copy_if_supported].
    + destruct (IH h (dset d n (CVal v)) N2 P2 E B (Dn _)) as ((x & X) & O & R). split; [now exists x|]. split.
      * intros m Hm. cbn [In] in Hm. rewrite O by tauto. apply dget_dset_other. intros ->. tauto.
      * intros m c [[= <- <-]|Hm]; [|exact (R m c Hm)]. exists (CVal v). split; [rewrite O by exact N1; apply dget_dset_same|]. split; [intros [|k]; reflexivity|exact I].
    + destruct P1 as (o & E0 & Fl & Hc). apply copied in Hc. pose proof (nth_lt _ _ _ E0) as B0. rewrite (E l0 B0), E0, Hc. cbn [alloc].
      destruct (IH (h ++ [o]) (dset d n (CRef (List.length h))) N2 P2) as ((x & X) & O & R).
      * intros l Hl. rewrite nth_app_l by lia. now apply E.
      * rewrite app_length. lia.
      * apply Dn.
      * split; [exists (o :: x); rewrite X, <- app_assoc; reflexivity|]. split.
        -- intros m Hm. cbn [In] in Hm. rewrite O by tauto. apply dget_dset_other. intros ->. tauto.
        -- intros m c [[= <- <-]|Hm].
           ++ exists (CRef (List.length h)). split; [rewrite O by exact N1; apply dget_dset_same|]. split; [|lia].
              intros [|k]; [reflexivity|]. cbn [look]. rewrite X, nth_error_app1 by (rewrite app_length; cbn; lia). rewrite nth_app_new, E0.
              assert (Y : forall c, In c (cells_of o) -> look k ((h ++ [o]) ++ x) c = look k h0 c).
              { intros c Hx. rewrite Forall_forall in Fl. specialize (Fl c Hx). destruct c; [now destruct k|easy]. }
              destruct o as [cs|bs|kvs|kvs]; try reflexivity; f_equal; apply map_ext_in.
              ** intros c Hx. now apply Y.
              ** intros [q c] Hx. cbn [fst snd]. f_equal. apply Y. cbn. apply in_map_iff. now exists (q, c).
              ** intros [q c] Hx. cbn [fst snd]. f_equal. apply Y. cbn. apply in_map_iff. now exists (q, c).
           ++ destruct (R m c Hm) as (c' & R1 & R2 & R3). exists c'. split; [exact R1|]. split; [exact R2|]. destruct c'; [exact I|]. rewrite app_length in R3. lia.
Qed.
Lemma fresh_default h0 fs ops n c : NoDup (map fst fs) -> Forall (fun f => plain_default h0 (snd f)) fs -> In (n, c) fs ->
  let s := run (new_struct fs) ops (start h0) in let s' := step (new_struct fs) s (ONew []) in
  exists c', attr s' (List.length (insts s)) n = Some c' /\ (forall depth, look depth (hp s') c' = look depth h0 c)
    /\ match c' with CVal _ => True | CRef l => (List.length (hp s) <= l)%nat end.
Proof.
  intros N P Hn s s'. destruct (run_inv fs h0 (fun _ => 0%nat) P ops _ _ (inv_start h0 _)) as (own & V).
  { apply Forall_forall. intros o _. apply any_allowed. }
  fold s in V. assert (E : forall l, (l < List.length h0)%nat -> nth_error (hp s) l = nth_error h0 l) by (intros l Hl; apply (iv_class _ _ _ _ V l Hl)).
  assert (B : (List.length h0 <= List.length (hp s))%nat).
  { rewrite <- (iv_len _ _ _ _ V). destruct (List.length h0) as [|k] eqn:L; [lia|]. destruct (iv_class _ _ _ _ V k ltac:(lia)) as [X _]. apply nth_lt in X. lia. }
  destruct (new_struct_fresh h0 fs (hp s) [] N P E B (fun _ _ => eq_refl)) as (_ & _ & R). destruct (R n c Hn) as (c' & R1 & R2 & R3).
  exists c'. unfold s', step. cbn [map eval_srcs combine]. destruct (new_struct fs [] (hp s) []) as [h' d'] eqn:Es. cbn [fst snd] in *. unfold attr. cbn [insts hp].
  rewrite nth_app_new. auto.
Qed.
Lemma isolated h0 fs ops ops2 j depth : Forall (fun f => plain_default h0 (snd f)) fs ->
  Forall keeps_apart ops -> Forall keeps_apart ops2 -> Forall (elsewhere j) ops2 ->
  let s := run (new_struct fs) ops (start h0) in (j < List.length (insts s))%nat ->
  seen depth (run (new_struct fs) ops2 s) j = seen depth s j.
Proof.
  intros P A A2 El s B. destruct (run_inv fs h0 (fun i => i) P ops _ _ (inv_start h0 _)) as (own & V).
  { eapply Forall_impl; [|exact A]. apply keeps_allowed. }
  fold s in V. clearbody s. clear A ops. revert s own V B. induction ops2 as [|o r IH]; intros s own V B; [reflexivity|].
  inversion A2 as [|? ? A21 A22]; subst. inversion El as [|? ? E1 E2]; subst. apply keeps_allowed in A21.
  assert (B1 : (j < List.length (insts (step (new_struct fs) s o)))%nat).
  { destruct (step_inv fs h0 (fun i => i) P own s o V A21) as (_ & _ & _ & _ & K). clear K. destruct o as [kw|i n x|p ch]; cbn [step].
    - destruct (eval_srcs s (map snd kw)) as [h [cs|]]; [|exact B]. destruct (new_struct fs _ h []). cbn [insts]. rewrite app_length. lia.
    - destruct (nth_error (insts s) i), (eval_src s x) as [h [c|]]; cbn [insts]; rewrite ?set_nth_length; exact B.
    - destruct (eval_path s p) as [[v|l]|]; try exact B. destruct (eval_srcs s (change_srcs ch)) as [h [cs|]]; [|exact B].
      destruct (nth_error h l) as [o|]; [|exact B]. destruct (apply_change ch cs o); exact B. }
  destruct (step_inv fs h0 (fun i => i) P own s o V A21) as (own1 & V1 & _).
  change (run (new_struct fs) (o :: r) s) with (run (new_struct fs) r (step (new_struct fs) s o)).
  rewrite (IH A22 E2 (step (new_struct fs) s o) own1 V1 B1). apply (step_elsewhere fs h0 (fun i => i) P own); auto.
  - destruct o as [kw|i n x|p ch]; cbn in *; [lia|congruence|congruence].
  - destruct o; cbn in *; auto.
Qed.

(** ** What is shared *)
Lemma eval_vals s vs : eval_srcs s (map SVal vs) = (hp s, Some (map CVal vs)).
Proof. induction vs as [|v r IH]; [reflexivity|]. cbn [map eval_srcs eval_src]. destruct s as [h i]. cbn [hp insts] in *. now rewrite IH. Qed.
Lemma look_vals d h vs : map (look d h) (map CVal vs) = map TVal vs.
Proof. rewrite map_map. apply map_ext. intros v. now destruct d. Qed.

Lemma buffer_defaults fs n c : forall d, NoDup (map fst fs) -> In (n, c) fs -> dget d n = None ->
  dget (fold_left (fun d f => match dget d (fst f) with Some _ => d | None => dset d (fst f) (snd f) end) fs d) n = Some c.
Proof.
  assert (K : forall fs d x, dget d n = Some x ->
    dget (fold_left (fun d f => match dget d (fst f) with Some _ => d | None => dset d (fst f) (snd f) end) fs d) n = Some x).
  { induction fs0 as [|[m y] fs0 IH]; intros d x E; [exact E|]. cbn [fold_left fst snd]. apply IH. destruct (dget d m) eqn:Em; [exact E|].
    rewrite dget_dset_other; [exact E|]. intros ->. congruence. }
  induction fs as [|[m y] fs IH]; intros d N I E; [easy|]. cbn [map fst] in N. inversion N as [|? ? N1 N2]; subst. cbn [fold_left fst snd].
  destruct I as [[= -> ->]|I].
  - rewrite E. apply K. apply dget_dset_same.
  - apply IH; auto. destruct (dget d m); [exact E|]. rewrite dget_dset_other; [exact E|]. intros ->. apply N1. apply in_map_iff. now exists (n, c).
Qed.
Lemma buffer_new fs n c s : NoDup (map fst fs) -> In (n, c) fs ->
  exists d, step (new_buffer fs) s (ONew []) = mkState (hp s) (insts s ++ [d]) /\ dget d n = Some c.
Proof. intros N I. eexists. split; [reflexivity|]. cbn [fold_left]. now apply buffer_defaults. Qed.
Lemma attr_last s d n k : k = List.length (insts s) -> attr (mkState (hp s) (insts s ++ [d])) k n = dget d n.
Proof. intros ->. unfold attr. cbn [insts]. now rewrite nth_app_new. Qed.

(** How a Struct gets a default that is an object. *)
Definition got (h : heap) (l : nat) (h' : heap) (c : cell) : Prop :=
  match nth_error h l with
  | Some o => if has_copy o then exists l', c = CRef l' /\ nth_error h' l' = Some o /\ (List.length h <= l')%nat else c = CRef l
  | None => c = CRef l
  end.
Lemma struct_get fs n l : forall h d, NoDup (map fst fs) -> (l < List.length h)%nat ->
  (In (n, CRef l) fs /\ dget d n = None -> exists x c, fst (new_struct fs [] h d) = h ++ x /\ dget (snd (new_struct fs [] h d)) n = Some c /\ got h l (h ++ x) c)
  /\ (~ In n (map fst fs) -> exists x, fst (new_struct fs [] h d) = h ++ x /\ dget (snd (new_struct fs [] h d)) n = dget d n).
Proof.
  induction fs as [|[m def] fs IH]; intros h d N B.
  - split; [easy|]. intros _. exists []. cbn. now rewrite app_nil_r.
  - cbn [map fst] in N. inversion N as [|? ? N1 N2]; subst. cbn [new_struct dget map fst In]. destruct (copy_if_supported h def) as [h1 c1] eqn:Ec.
    assert (X : exists x, h1 = h ++ x).
    { destruct def as [v|l1]; cbn in Ec; [injection Ec as <- <-; exists []; now rewrite app_nil_r|]. destruct (nth_error h l1) as [o|]; [|injection Ec as <- <-; exists []; now rewrite app_nil_r].
      destruct (has_copy o); injection Ec as <- <-; [now exists [o]|exists []; now rewrite app_nil_r]. }
    destruct X as (x1 & ->). assert (B1 : (l < List.length (h ++ x1))%nat) by (rewrite app_length; lia). split.
    + intros [[[= -> ->]|I] D].
      * rewrite D. destruct (proj2 (IH (h ++ x1) (dset d n c1) N2 B1) N1) as (x & E & G). exists (x1 ++ x), c1. rewrite app_assoc. split; [exact E|]. split; [rewrite G; apply dget_dset_same|].
        unfold got. cbn in Ec. destruct (nth_error h l) as [o|] eqn:El; [|congruence]. destruct (has_copy o); [|congruence]. apply pair_equal_spec in Ec as [E1 <-].
        apply app_inv_head in E1. subst x1. exists (List.length h). split; [reflexivity|]. split; [|lia]. rewrite nth_error_app1 by (rewrite app_length; cbn; lia). apply nth_app_new.
      * assert (Nm : m <> n) by (intros ->; apply N1; apply in_map_iff; now exists (n, CRef l)).
        destruct (dget d m) as [y|] eqn:Dm; [exact (proj1 (IH h d N2 B) (conj I D))|].
        destruct (proj1 (IH (h ++ x1) (dset d m c1) N2 B1)) as (x & c & E & G & T); [split; [exact I|now rewrite dget_dset_other]|].
        exists (x1 ++ x), c. rewrite app_assoc. split; [exact E|]. split; [exact G|]. unfold got in *. rewrite nth_app_l in T by exact B.
        destruct (nth_error h l) as [o|]; [|exact T]. destruct (has_copy o); [|exact T]. destruct T as (l' & T1 & T2 & T3). exists l'. split; [exact T1|]. split; [exact T2|]. rewrite app_length in T3. lia.
    + intros Nn. destruct (dget d m) as [y|] eqn:Dm; [apply (IH h d N2 B); tauto|].
      destruct (proj2 (IH (h ++ x1) (dset d m c1) N2 B1)) as (x & E & G); [tauto|]. exists (x1 ++ x). rewrite app_assoc. split; [exact E|]. rewrite G. apply dget_dset_other. tauto.
Qed.
Lemma struct_new fs n l s : NoDup (map fst fs) -> In (n, CRef l) fs -> (l < List.length (hp s))%nat ->
  exists x d c, step (new_struct fs) s (ONew []) = mkState (hp s ++ x) (insts s ++ [d]) /\ dget d n = Some c /\ got (hp s) l (hp s ++ x) c.
Proof.
  intros N I B. destruct (proj1 (struct_get fs n l (hp s) [] N B) (conj I eq_refl)) as (x & c & E & G & T). cbn [step map eval_srcs combine].
  destruct (new_struct fs [] (hp s) []) as [h d]. cbn [fst snd] in *. subst h. exists x, d, c. auto.
Qed.

(** Three instances, with a change in place through the first one before the third is made. *)
Definition three (n : name) (i : nat) (steps : list nat) (ch : change) : list op := [ONew []; ONew []; OChange (mkPath i n steps) ch; ONew []].

Lemma buffer_shared fs n l s old vs : NoDup (map fst fs) -> In (n, CRef l) fs -> nth_error (hp s) l = Some (HList old) ->
  let i := List.length (insts s) in
  let s' := run (new_buffer fs) (three n i [] (ChList (map SVal vs))) s in
  forall k, In k [i; S i; S (S i)] -> exists c, attr s' k n = Some c /\ forall d, look (S d) (hp s') c = TList (map TVal vs).
Proof.
  intros N I E i s'. unfold s', run, three. cbn [fold_left].
  destruct (buffer_new fs n (CRef l) s N I) as (d1 & -> & G1). set (s1 := mkState (hp s) (insts s ++ [d1])).
  destruct (buffer_new fs n (CRef l) s1 N I) as (d2 & -> & G2). set (s2 := mkState (hp s1) (insts s1 ++ [d2])).
  assert (A2 : nth_error (insts s2) i = Some d1). { unfold s2, s1, i. cbn [insts]. rewrite nth_app_l by (rewrite app_length; cbn; lia). apply nth_app_new. }
  assert (A2' : nth_error (insts s2) (S i) = Some d2). { unfold s2, s1, i. cbn [insts]. replace (S (List.length (insts s))) with (List.length (insts s ++ [d1])) by (rewrite app_length; cbn; lia). apply nth_app_new. }
  assert (L2 : List.length (insts s2) = S (S i)). { unfold s2, s1, i. cbn [insts]. rewrite !app_length. cbn. lia. }
  set (s3 := step (new_buffer fs) s2 _).
  assert (E3 : s3 = mkState (set_nth (hp s) l (HList (map CVal vs))) (insts s2)).
  { unfold s3. cbn [step]. unfold eval_path, attr. cbn [p_inst p_attr p_steps]. rewrite A2, G1. cbn [walk]. cbn [change_srcs]. rewrite eval_vals. cbn [hp s2 s1]. rewrite E. reflexivity. }
  destruct (buffer_new fs n (CRef l) s3 N I) as (d4 & -> & G4). rewrite E3. intros k Hk. exists (CRef l). split.
  - unfold attr. cbn [insts]. destruct Hk as [<-|[<-|[<-|[]]]].
    + rewrite nth_app_l by lia. now rewrite A2.
    + rewrite nth_app_l by lia. now rewrite A2'.
    + rewrite <- L2, nth_app_new. exact G4.
  - intros d. cbn [hp look]. rewrite set_nth_same by (eapply nth_lt; eauto). now rewrite look_vals.
Qed.
Lemma struct_nested_shared fs n l s cs q t old vs : NoDup (map fst fs) -> In (n, CRef l) fs ->
  nth_error (hp s) l = Some (HList cs) -> nth_error cs q = Some (CRef t) -> nth_error (hp s) t = Some (HList old) -> t <> l ->
  let i := List.length (insts s) in
  let s' := run (new_struct fs) (three n i [q] (ChList (map SVal vs))) s in
  forall k, In k [i; S i; S (S i)] -> exists c, eval_path s' (mkPath k n [q]) = Some c /\ forall d, look (S d) (hp s') c = TList (map TVal vs).
Proof.
  intros N I El Eq Et Nt i s'. unfold s', run, three. cbn [fold_left].
  pose proof (nth_lt _ _ _ El) as Bl. pose proof (nth_lt _ _ _ Et) as Bt.
  destruct (struct_new fs n l s N I Bl) as (x1 & d1 & c1 & -> & G1 & T1). set (s1 := mkState (hp s ++ x1) (insts s ++ [d1])).
  assert (Bl1 : (l < List.length (hp s1))%nat) by (unfold s1; cbn [hp]; rewrite app_length; lia).
  destruct (struct_new fs n l s1 N I Bl1) as (x2 & d2 & c2 & -> & G2 & T2). set (s2 := mkState (hp s1 ++ x2) (insts s1 ++ [d2])).
  assert (A2 : nth_error (insts s2) i = Some d1). { unfold s2, s1, i. cbn [insts]. rewrite nth_app_l by (rewrite app_length; cbn; lia). apply nth_app_new. }
  assert (A2' : nth_error (insts s2) (S i) = Some d2). { unfold s2, s1, i. cbn [insts]. replace (S (List.length (insts s))) with (List.length (insts s ++ [d1])) by (rewrite app_length; cbn; lia). apply nth_app_new. }
  assert (L2 : List.length (insts s2) = S (S i)). { unfold s2, s1, i. cbn [insts]. rewrite !app_length. cbn. lia. }
  unfold got in T1, T2. rewrite El in T1. cbn [hp s1] in T2. rewrite nth_app_l, El in T2 by exact Bl. cbn [has_copy] in T1, T2.
  destruct T1 as (l1 & -> & T1 & B1). destruct T2 as (l2 & -> & T2 & B2).
  assert (H1 : nth_error (hp s2) l1 = Some (HList cs)). { unfold s2. cbn [hp s1]. rewrite nth_app_l by (eapply nth_lt; eauto). exact T1. }
  assert (H2 : nth_error (hp s2) l2 = Some (HList cs)) by exact T2.
  assert (Ht : nth_error (hp s2) t = Some (HList old)). { unfold s2, s1. cbn [hp]. rewrite !nth_app_l by (rewrite ?app_length; lia). exact Et. }
  assert (Hl : nth_error (hp s2) l = Some (HList cs)). { unfold s2, s1. cbn [hp]. rewrite !nth_app_l by (rewrite ?app_length; lia). exact El. }
  rewrite app_length in B2.
  set (s3 := step (new_struct fs) s2 _).
  assert (E3 : s3 = mkState (set_nth (hp s2) t (HList (map CVal vs))) (insts s2)).
  { unfold s3. cbn [step]. unfold eval_path, attr. cbn [p_inst p_attr p_steps]. rewrite A2, G1. cbn [walk]. rewrite H1. cbn [cells_of]. rewrite Eq. cbn [change_srcs]. rewrite eval_vals. rewrite Ht. reflexivity. }
  assert (Bl3 : (l < List.length (hp s3))%nat) by (rewrite E3; cbn [hp]; rewrite set_nth_length; eapply nth_lt; eauto).
  destruct (struct_new fs n l s3 N I Bl3) as (x4 & d4 & c4 & -> & G4 & T4). unfold got in T4. rewrite E3 in T4. cbn [hp] in T4. rewrite set_nth_other, Hl in T4 by congruence. cbn [has_copy] in T4.
  destruct T4 as (l4 & -> & T4 & B4). rewrite E3. cbn [hp insts]. intros k Hk. exists (CRef t).
  assert (Sn : forall lx, lx <> t -> nth_error (hp s2) lx = Some (HList cs) -> nth_error (set_nth (hp s2) t (HList (map CVal vs)) ++ x4) lx = Some (HList cs)).
  { intros lx Nx Hx. rewrite nth_app_l by (rewrite set_nth_length; eapply nth_lt; eauto). rewrite set_nth_other by exact Nx. exact Hx. }
  split.
  - unfold eval_path, attr. cbn [p_inst p_attr p_steps insts hp]. destruct Hk as [<-|[<-|[<-|[]]]].
    + rewrite nth_app_l by lia. rewrite A2, G1. cbn [walk]. rewrite (Sn l1) by (auto; lia). cbn [cells_of]. now rewrite Eq.
    + rewrite nth_app_l by lia. rewrite A2', G2. cbn [walk]. rewrite (Sn l2) by (auto; lia). cbn [cells_of]. now rewrite Eq.
    + rewrite <- L2, nth_app_new, G4. cbn [walk]. rewrite T4. cbn [cells_of]. now rewrite Eq.
  - intros d. cbn [look]. rewrite nth_app_l by (rewrite set_nth_length; eapply nth_lt; eauto). rewrite set_nth_same by (eapply nth_lt; eauto). now rewrite look_vals.
Qed.
Lemma struct_instance_shared fs n l s old kvs : NoDup (map fst fs) -> In (n, CRef l) fs -> nth_error (hp s) l = Some (HInst old) ->
  let i := List.length (insts s) in
  let s' := run (new_struct fs) (three n i [] (ChInst (map (fun kv => (fst kv, SVal (snd kv))) kvs))) s in
  forall k, In k [i; S i; S (S i)] -> exists c, attr s' k n = Some c /\ forall d, look (S d) (hp s') c = TInst (map (fun kv => (fst kv, TVal (snd kv))) kvs).
Proof.
  intros N I El i s'. unfold s', run, three. cbn [fold_left]. pose proof (nth_lt _ _ _ El) as Bl.
  destruct (struct_new fs n l s N I Bl) as (x1 & d1 & c1 & -> & G1 & T1). set (s1 := mkState (hp s ++ x1) (insts s ++ [d1])).
  assert (Bl1 : (l < List.length (hp s1))%nat) by (unfold s1; cbn [hp]; rewrite app_length; lia).
  destruct (struct_new fs n l s1 N I Bl1) as (x2 & d2 & c2 & -> & G2 & T2). set (s2 := mkState (hp s1 ++ x2) (insts s1 ++ [d2])).
  assert (A2 : nth_error (insts s2) i = Some d1). { unfold s2, s1, i. cbn [insts]. rewrite nth_app_l by (rewrite app_length; cbn; lia). apply nth_app_new. }
  assert (A2' : nth_error (insts s2) (S i) = Some d2). { unfold s2, s1, i. cbn [insts]. replace (S (List.length (insts s))) with (List.length (insts s ++ [d1])) by (rewrite app_length; cbn; lia). apply nth_app_new. }
  assert (L2 : List.length (insts s2) = S (S i)). { unfold s2, s1, i. cbn [insts]. rewrite !app_length. cbn. lia. }
  unfold got in T1, T2. rewrite El in T1. cbn [hp s1] in T2. rewrite nth_app_l, El in T2 by exact Bl. cbn [has_copy] in T1, T2. subst c1 c2.
  assert (Hl : nth_error (hp s2) l = Some (HInst old)). { unfold s2, s1. cbn [hp]. rewrite !nth_app_l by (rewrite ?app_length; lia). exact El. }
  set (s3 := step (new_struct fs) s2 _).
  assert (Ec : combine (map fst (map (fun kv : name * value => (fst kv, SVal (snd kv))) kvs)) (map CVal (map snd kvs)) = map (fun kv => (fst kv, CVal (snd kv))) kvs).
  { clear. induction kvs as [|[a b] r IH]; [reflexivity|]. cbn [map combine fst snd]. now rewrite IH. }
  assert (E3 : s3 = mkState (set_nth (hp s2) l (HInst (map (fun kv => (fst kv, CVal (snd kv))) kvs))) (insts s2)).
  { unfold s3. cbn [step]. unfold eval_path, attr. cbn [p_inst p_attr p_steps]. rewrite A2, G1. cbn [walk change_srcs]. rewrite map_map. cbn [snd]. rewrite <- (map_map snd SVal), eval_vals. rewrite Hl. cbn [apply_change]. now rewrite Ec. }
  assert (Bl3 : (l < List.length (hp s3))%nat) by (rewrite E3; cbn [hp]; rewrite set_nth_length; eapply nth_lt; eauto).
  destruct (struct_new fs n l s3 N I Bl3) as (x4 & d4 & c4 & -> & G4 & T4). unfold got in T4. rewrite E3 in T4. cbn [hp] in T4. rewrite set_nth_same in T4 by (eapply nth_lt; eauto). cbn [has_copy] in T4. subst c4.
  rewrite E3. cbn [hp insts]. intros k Hk. exists (CRef l). split.
  - unfold attr. cbn [insts]. destruct Hk as [<-|[<-|[<-|[]]]].
    + rewrite nth_app_l by lia. now rewrite A2.
    + rewrite nth_app_l by lia. now rewrite A2'.
    + rewrite <- L2, nth_app_new. exact G4.
  - intros d. cbn [look]. rewrite nth_app_l by (rewrite set_nth_length; eapply nth_lt; eauto). rewrite set_nth_same by (eapply nth_lt; eauto). f_equal. rewrite map_map. apply map_ext. intros [a b]. cbn [fst snd]. now destruct d.
Qed.

(** What a program assigns is what it sees. *)
Lemma assigned_seen new s i n t : (i < List.length (insts s))%nat ->
  let s' := step new s (OSet i n (SNew t)) in
  exists c, attr s' i n = Some c /\ (forall d, look (S d) (hp s') c = written t)
    /\ (forall m, m <> n -> attr s' i m = attr s i m) /\ (forall j m, j <> i -> attr s' j m = attr s j m)
    /\ forall l, (l < List.length (hp s))%nat -> nth_error (hp s') l = nth_error (hp s) l.
Proof.
  intros Hi s'. unfold s'. cbn [step]. destruct (nth_error (insts s) i) as [d|] eqn:E; [|apply nth_error_None in E; lia].
  cbn [eval_src]. unfold alloc. cbn [hp insts]. exists (CRef (List.length (hp s))). unfold attr. cbn [hp insts].
  split; [|split; [|split; [|split]]].
  - rewrite set_nth_same by exact Hi. apply dget_dset_same.
  - intros k. cbn [look]. rewrite nth_app_new. destruct t; cbn [build written]; [now rewrite look_vals|reflexivity|..];
      (rewrite map_map; f_equal; apply map_ext; intros [a b]; cbn [fst snd]; now destruct k).
  - intros m Hm. rewrite set_nth_same by exact Hi. rewrite E. apply dget_dset_other. congruence.
  - intros j m Hj. now rewrite set_nth_other by congruence.
  - intros l Hl. now apply nth_app_l.
Qed.

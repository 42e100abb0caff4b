(** Packing nested objects as objects gives the bytes that packing them as values gives. *)
From Verif Require Import Base BaseProofs Marshal FieldSpec FieldFacts Range IoBuffer Serialize RefEngine RefSpec RefProofs BufferModel BufferSpec BufferMacros BufferFacts
  BufferPack BufferNested BufferHooks RepeatSpec RepeatFacts Deep.
From Coq Require Import ZArith List Bool String Lia.
Import ListNotations.
Open Scope list_scope.

Section Deep.
Variable C : cls.
Variable nest : nat -> option (value -> res buf * value).
Notation C' := (deepen C nest).
Notation ext := (extra C).
Notation look := (RefEngine.lookup rid_eqb).

(** ** The class *)
Lemma combine_map {A B} (g : nat * A -> B) (l : list A) : forall k,
  combine (seq k (List.length l)) (map g (combine (seq k (List.length l)) l)) = map (fun p => (fst p, g p)) (combine (seq k (List.length l)) l).
Proof. induction l as [|x l IH]; intros k; cbn [List.length seq combine map fst]; [reflexivity|]. now rewrite IH. Qed.
Lemma deep_numbered : numbered C' = map (fun p => (fst p, deep_field C nest (fst p) (snd p))) (numbered C).
Proof.
  unfold numbered at 1. cbn [deepen k_fields]. rewrite map_length. unfold numbered. rewrite combine_length, seq_length, Nat.min_id. apply combine_map.
Qed.
Lemma deep_nth i : nth_error (k_fields C') i = option_map (deep_field C nest i) (nth_error (k_fields C) i).
Proof.
  cbn [deepen k_fields]. rewrite nth_error_map. destruct (nth_error (k_fields C) i) as [f|] eqn:E.
  - rewrite (numbered_nth C i f E). reflexivity.
  - assert (N : nth_error (numbered C) i = None); [|now rewrite N]. apply nth_error_None. apply nth_error_None in E. unfold numbered.
    rewrite combine_length, seq_length. lia.
Qed.
Lemma deep_name i f : f_name (deep_field C nest i f) = f_name f.
Proof. unfold deep_field. destruct (nest i); reflexivity. Qed.
Lemma deep_find n : find_field n (numbered C') = find_field n (numbered C).
Proof.
  rewrite deep_numbered. induction (numbered C) as [|[i f] l IH]; cbn [map find_field fst snd]; [reflexivity|]. rewrite deep_name. now rewrite IH.
Qed.
Lemma deep_user i : (i < List.length (k_users C))%nat -> nth_error (k_users C') i = nth_error (k_users C) i.
Proof. intros H. cbn [deepen k_users]. now apply nth_error_app1. Qed.
Lemma deep_extra i f : nth_error (k_fields C) i = Some f -> nodes C' (ext i) = user_prog C' (extra_user nest i f).
Proof.
  intros H. unfold nodes, extra. cbn [r_kind r_no deepen k_users]. rewrite nth_error_app2 by lia.
  replace (List.length (k_users C) + i - List.length (k_users C))%nat with i by lia. rewrite nth_error_map, (numbered_nth C i f H). reflexivity.
Qed.

(** ** Programs that do the same *)
Definition old (r : rid) : Prop := r_kind r = KUser -> (r_no r < List.length (k_users C))%nat.
Lemma old_in r : rid_in C r -> old r.
Proof. intros H K. destruct (BufferFacts.in_inv C r H) as [->|[(_ & L)|(F & _)]]; [discriminate|exact L|]. rewrite K in F. discriminate. Qed.
Lemma old_ext i r : old r -> rid_eqb r (ext i) = false.
Proof.
  intros H. destruct (rid_eqb r (ext i)) eqn:E; [|reflexivity]. apply (proj1 (rid_eqb_spec _ _)) in E. subst r. unfold old, extra in H. cbn in H. specialize (H eq_refl). lia.
Qed.
(** No name of a nested field. *)
Definition flat (n : name) : Prop := forall i f pk, nth_error (k_fields C) i = Some f -> nest i = Some pk -> f_name f <> n.

Inductive dsim : bprog -> bprog -> Prop :=
| ds_ret v : dsim (PRet v) (PRet v)
| ds_raise e : dsim (PRaise e) (PRaise e)
| ds_ref r k k' : writing r -> old r -> (forall v, dsim (k v) (k' v)) -> dsim (PRef r k) (PRef r k')
| ds_look g k k' : (forall a b, g (mkBst a None) = g (mkBst b None)) -> (forall v, g (mkBst [] None) = Ok v -> dsim (k v) (k' v)) ->
    dsim (PCtx (fun s => (g s, s)) k) (PCtx (fun s => (g s, s)) k')
| ds_get n k k' : flat n -> (forall v, dsim (k v) (k' v)) -> dsim (get_attr n k) (get_attr n k')
| ds_assign n v : flat n -> dsim (assign n v) (assign n v).

Definition garg (a : arg) : Prop := match a with AConst _ => True | ARef r => writing r /\ old r end.
Lemma ds_res m : dsim (ret m) (ret m).
Proof. destruct m; constructor. Qed.
Lemma ds_ev a k : garg a -> (forall v, dsim (k v) (k v)) -> dsim (ev a k) (ev a k).
Proof. intros Ha H. destruct a; cbn [ev]; auto. destruct Ha. constructor; auto. Qed.
Lemma ds_ev_list l : forall k, Forall garg l -> (forall vs, dsim (k vs) (k vs)) -> dsim (ev_list l k) (ev_list l k).
Proof. induction l as [|a l IH]; intros k Hl H; cbn [ev_list]; auto. inversion Hl; subst. apply ds_ev; auto. Qed.
Lemma ds_ev_refs l : forall k, Forall (fun r => writing r /\ old r) l -> (forall vs, dsim (k vs) (k vs)) -> dsim (ev_refs l k) (ev_refs l k).
Proof. induction l as [|a l IH]; intros k Hl H; cbn [ev_refs]; auto. inversion Hl as [|? ? (W & N) ?]; subst. constructor; auto. Qed.
Lemma ds_if_pack p u u' : dsim p p -> dsim (if_pack p u) (if_pack p u').
Proof. intros H. apply ds_look; [reflexivity|]. cbn [s_input]. intros v E. injection E as <-. exact H. Qed.
Lemma ds_some w k : (forall l, dsim (k l) (k l)) -> dsim (some_ranges w k) (some_ranges w k).
Proof. intros H. unfold some_ranges. destruct (as_ranges w) as [[|]|]; auto; constructor. Qed.
Lemma ds_total : dsim (total_prog C) (total_prog C').
Proof.
  unfold total_prog. apply ds_look; [reflexivity|]. intros z _. destruct z as [[]| | | |]; try apply ds_ret.
  assert (E : map (fun p => mkRid KPackPos (fst p)) (numbered C') = map (fun p => mkRid KPackPos (fst p)) (numbered C)).
  { rewrite deep_numbered, map_map. reflexivity. }
  rewrite E. apply ds_if_pack. apply ds_ev_refs; [|intros; apply ds_res].
  apply Forall_forall. intros r Hr. apply in_map_iff in Hr. destruct Hr as (p & <- & _). split; [exact Logic.I|discriminate].
Qed.

Hypothesis Hfun : no_functions C.
Hypothesis Hok : cls_ok C.
Hypothesis Hnames : NoDup (map f_name (k_fields C)).
(** Nested fields: their packers do what the objects do; no set_before_pack and no further keywords. *)
Hypothesis Hnest : forall i f pk, nth_error (k_fields C) i = Some f -> nest i = Some pk ->
  f_before f = None /\ f_pack_args f = [] /\ forall args v n, f_pack f args v n = fst (pk v).

Lemma flat_other i f : nth_error (k_fields C) i = Some f -> nest i = None -> flat (f_name f).
Proof. intros E N j g pk Ej Nj En. destruct (same_name C Hnames _ _ _ _ E Ej En) as (-> & ->). congruence. Qed.
Lemma good_arg a : plain_arg a -> arg_in C a -> garg a.
Proof. destruct a as [v|r]; cbn; [auto|]. intros P I. split; [now apply plain_writing|now apply old_in]. Qed.
Lemma good_args l : Forall plain_arg l -> Forall (arg_in C) l -> Forall garg l.
Proof. intros P I. apply Forall_forall. intros a Ha. apply good_arg; [exact (proj1 (Forall_forall _ _) P a Ha)|exact (proj1 (Forall_forall _ _) I a Ha)]. Qed.
Lemma ds_plain r k : plain_rid r -> rid_in C r -> (forall v, dsim (k v) (k v)) -> dsim (PRef r k) (PRef r k).
Proof. intros P I H. constructor; auto using plain_writing, old_in. Qed.

Lemma ds_user u : In u (k_users C) -> dsim (user_prog C u) (user_prog C' u).
Proof.
  intros Hin. pose proof (proj1 (Forall_forall _ _) (proj1 (proj1 Hfun)) u Hin) as P. pose proof (proj1 (Forall_forall _ _) (proj1 Hok) u Hin) as I.
  destruct u; cbn [plain_user uref_in] in P, I; cbn [user_prog];
    try (repeat first [apply ds_ev; [apply good_arg; tauto|intros] | apply ds_ev_list; [apply good_args; tauto|intros] | apply ds_plain; [tauto|tauto|intros] | apply ds_some; intros | apply ds_res | constructor]; fail).
  - rewrite deep_nth. destruct (nth_error (k_fields C) i) as [f|]; cbn [option_map]; [|constructor].
    unfold after_prog. apply ds_if_pack. constructor; [exact Logic.I|discriminate|]. intros. apply ds_res.
  - apply ds_total.
  - rewrite deep_find. destruct (find_field n (numbered C)) as [j|] eqn:Ef.
    + apply ds_look; [reflexivity|]. intros _ _. constructor; [exact Logic.I|discriminate|]. intros. constructor.
    + apply ds_get; [|constructor]. intros i f pk Hi _. apply (RepeatFacts.find_none _ _ Ef i f). now apply numbered_in.
  - constructor; [exact Logic.I|discriminate|]. intros. constructor.
  - contradiction.
Qed.

(** The nodes of nested values and packed nested fields are different. *)
Definition special (r : rid) : Prop := (r_kind r = KPackValue \/ r_kind r = KPack) /\ nest (r_no r) <> None.
Lemma ds_node r : writing r -> old r -> ~ special r -> dsim (nodes C r) (nodes C' r).
Proof.
  intros W O S. destruct r as [k i]. unfold nodes. cbn [r_kind r_no]. unfold writing in W. cbn [r_kind] in W.
  destruct k; try contradiction;
    try (rewrite deep_nth; destruct (nth_error (k_fields C) i) as [f|] eqn:E; cbn [option_map]; [|constructor];
         pose proof (proj1 (Forall_forall _ _) (proj2 (proj1 Hfun)) f (nth_error_In _ _ E)) as (P1 & P2 & P3 & P4 & P5 & P6 & P7);
         pose proof (proj1 (Forall_forall _ _) (proj2 Hok) f (nth_error_In _ _ E)) as (I1 & I2 & I3 & I4 & I5 & I6 & I7 & I8);
         cbn [field_node]).
  - assert (X : f_where_pack (deep_field C nest i f) = f_where_pack f) by (unfold deep_field; destruct (nest i); reflexivity).
    unfold pack_pos. rewrite X. apply ds_plain; auto. intros w. destruct (as_ranges w) as [l|]; [|constructor]. destruct (has_overlaps l) as [[|]|]; try constructor.
    destruct (list_is_open l); [|constructor]. constructor; [exact Logic.I|discriminate|]. intros. apply ds_res.
  - assert (X : f_where_pack (deep_field C nest i f) = f_where_pack f) by (unfold deep_field; destruct (nest i); reflexivity).
    unfold pack_len. rewrite X. apply ds_plain; auto. intros w. destruct (as_ranges w) as [l|]; [|constructor]. destruct (list_is_open l); [constructor|].
    constructor; [exact Logic.I|discriminate|]. intros. apply ds_res.
  - assert (X : f_before (deep_field C nest i f) = f_before f) by (unfold deep_field; destruct (nest i); reflexivity).
    unfold before_value. rewrite X. pose proof (proj1 (Forall_forall _ _) (proj2 Hfun) f (nth_error_In _ _ E)) as B. cbv beta in B.
    destruct (f_before f) as [[g|x|r]|]; [contradiction|constructor..].
  - assert (N : nest i = None). { destruct (nest i) eqn:N; [|reflexivity]. destruct S. split; [now left|]. cbn [r_no]. congruence. }
    unfold deep_field. rewrite N. unfold pack_value. pose proof (proj1 (Forall_forall _ _) (proj2 Hfun) f (nth_error_In _ _ E)) as B. cbv beta in B.
    destruct (f_before f) as [[g|x|r]|]; [contradiction| | |].
    + apply ds_assign. eapply flat_other; eauto.
    + apply ds_look; [reflexivity|]. intros _ _. apply ds_plain; auto. intros. apply ds_assign. eapply flat_other; eauto.
    + apply ds_get; [eapply flat_other; eauto|]. constructor.
  - assert (N : nest i = None). { destruct (nest i) eqn:N; [|reflexivity]. destruct S. split; [now right|]. cbn [r_no]. congruence. }
    unfold deep_field. rewrite N. unfold pack_ref. constructor; [exact Logic.I|discriminate|]. intros v.
    assert (K : forall n, dsim (ev_list (f_pack_args f) (fun args => ret (let* v := as_value v in let* n := opt_num_bits n in let* b := f_pack f args v n in Ok (RBuf b))))
                               (ev_list (f_pack_args f) (fun args => ret (let* v := as_value v in let* n := opt_num_bits n in let* b := f_pack f args v n in Ok (RBuf b))))).
    { intros n. apply ds_ev_list; [now apply good_args|]. intros. apply ds_res. }
    unfold with_size. destruct (f_size f); [apply K|]. constructor; [exact Logic.I|discriminate|]. exact K.
  - apply ds_if_pack. constructor; [exact Logic.I|discriminate|]. intros. constructor.
  - rewrite deep_user by (apply O; reflexivity). destruct (nth_error (k_users C) i) as [u|] eqn:E; [|constructor]. apply ds_user. eapply nth_error_In; eauto.
  - apply ds_total.
Qed.

(** ** The engine *)
Section Engine.
Variable o0 : attrs.
Definition len_ok (r : rid) (v : rv) : Prop := r_kind r = KPackLen -> exists x, opt_num_bits v = Ok x.
Lemma returns_all (T : rv -> Prop) (p : bprog) : (forall v, T v) -> returns T p.
Proof. intros H. induction p; constructor; auto. Qed.
Lemma size_ok n : exists x, opt_num_bits (rsize n) = Ok x.
Proof. destruct n as [n|]; cbn [rsize opt_num_bits]; [|eauto]. unfold rnum. destruct (n mod 8 =? 0)%Z; cbn; eauto. Qed.
Lemma nodes_len r : returns (len_ok r) (nodes C r).
Proof.
  destruct (kind_eq_dec (r_kind r) KPackLen) as [E|N]; [|apply returns_all; intros v K; contradiction].
  destruct r as [k i]. cbn [r_kind] in E. subst k. unfold nodes. cbn [r_kind r_no]. destruct (nth_error (k_fields C) i) as [f|]; [|constructor].
  cbn [field_node]. unfold pack_len. constructor. intros w. destruct (as_ranges w) as [l|]; [|constructor]. destruct (list_is_open l).
  - constructor. intros _. cbn. eauto.
  - constructor. intros p. apply returns_ret. intros v Hv _. destruct (as_ranges p) as [q|]; [|discriminate]. cbn [rbind] in Hv. injection Hv as <-. apply size_ok.
Qed.

Record Inv (c : ctx rid rv) (s : bst) (c' : ctx rid rv) (s' : bst) : Prop := mkInv {
  inv_in : s_input s = None;
  inv_in' : s_input s' = None;
  inv_nodes : c_nodes c' = c_nodes c;
  inv_ext : forall i, ~ In (ext i) (c_nodes c);
  inv_old : forall r, old r -> look r (c_cache c') = look r (c_cache c);
  inv_typed : typed rid_eqb len_ok (c_cache c);
  inv_value : forall i f pk w, nth_error (k_fields C) i = Some f -> nest i = Some pk -> look (mkRid KPackValue i) (c_cache c) = Some w -> exists v, w = RVal v;
  inv_nested : forall i f pk, nth_error (k_fields C) i = Some f -> nest i = Some pk ->
    match look (mkRid KPack i) (c_cache c) with
    | Some w => exists v b, w = RBuf b /\ look (mkRid KPackValue i) (c_cache c) = Some (RVal v) /\ fst (pk v) = Ok b
        /\ look (ext i) (c_cache c') = Some (RBuf b) /\ Marshal.lookup (s_obj s') (f_name f) = Some (snd (pk v))
    | None => look (ext i) (c_cache c') = None /\ Marshal.lookup (s_obj s') (f_name f) = Marshal.lookup (s_obj s) (f_name f)
    end;
  inv_flat : forall n, flat n -> Marshal.lookup (s_obj s') n = Marshal.lookup (s_obj s) n;
  inv_assigned : exists U, s_obj s' = assign_all U o0 }.

Lemma inv_push r c s c' s' : old r -> Inv c s c' s' -> Inv (push r c) s (push r c') s'.
Proof.
  intros O H. destruct H. constructor; cbn [push c_nodes c_cache]; auto; [congruence|].
  intros i [E|K]; [|exact (inv_ext0 i K)]. pose proof (old_ext i r O) as X. rewrite E in X. rewrite (proj2 (rid_eqb_spec _ _) eq_refl) in X. discriminate.
Qed.
Lemma in_remove1 (x r : rid) l : In x (remove1 rid_eqb r l) -> In x l.
Proof. induction l as [|y l IH]; cbn [remove1]; [auto|]. destruct (rid_eqb r y); cbn; intuition. Qed.
Lemma look_cons (r x : rid) (v : rv) m : look r ((x, v) :: m) = if rid_eqb r x then Some v else look r m.
Proof. reflexivity. Qed.
Lemma rid_neq k i k' i' : k <> k' -> rid_eqb (mkRid k i) (mkRid k' i') = false.
Proof. intros N. destruct (rid_eqb (mkRid k i) (mkRid k' i')) eqn:E; [|reflexivity]. apply (proj1 (rid_eqb_spec _ _)) in E. congruence. Qed.
Lemma ext_old i r : old r -> rid_eqb (ext i) r = false.
Proof. intros O. destruct (rid_eqb (ext i) r) eqn:E; [|reflexivity]. apply (proj1 (rid_eqb_spec _ _)) in E. pose proof (old_ext i r O) as X. rewrite <- E in X. now rewrite (proj2 (rid_eqb_spec _ _) eq_refl) in X. Qed.
Lemma inv_store r v c s c' s' : old r -> ~ special r -> len_ok r v -> Inv c s c' s' -> Inv (pop rid_eqb r (store r v c)) s (pop rid_eqb r (store r v c')) s'.
Proof.
  intros O S L H.
  assert (X : forall k i pk, k = KPackValue \/ k = KPack -> nest i = Some pk -> rid_eqb (mkRid k i) r = false).
  { intros k i pk K N. destruct (rid_eqb (mkRid k i) r) eqn:E; [|reflexivity]. apply (proj1 (rid_eqb_spec _ _)) in E. subst r. destruct S. split; [exact K|]. cbn [r_no]. congruence. }
  destruct H. constructor; cbn [pop store c_nodes c_cache]; auto.
  - now rewrite inv_nodes0.
  - intros i K. exact (inv_ext0 i (in_remove1 _ _ _ K)).
  - intros q Oq. rewrite !look_cons. destruct (rid_eqb q r); auto.
  - intros q w. rewrite look_cons. destruct (rid_eqb q r) eqn:E; [|apply inv_typed0]. intros Ew. injection Ew as <-. apply (proj1 (rid_eqb_spec _ _)) in E. now subst q.
  - intros i f pk w Hf Hp. rewrite look_cons, (X KPackValue i pk) by auto. eauto.
  - intros i f pk Hf Hp. rewrite !look_cons, (X KPackValue i pk), (X KPack i pk), (ext_old i r O) by auto. exact (inv_nested0 i f pk Hf Hp).
Qed.

Definition follows (Q : rv -> ctx rid rv -> bst -> ctx rid rv -> bst -> Prop) (x x' : option (outcome rid rv * ctx rid rv * bst)) : Prop :=
  match x with
  | None => True
  | Some (y, c1, s1) => exists c1' s1', x' = Some (y, c1', s1') /\ forall v, y = OOk v -> Q v c1 s1 c1' s1'
  end.
Notation engine := (rid -> ctx rid rv -> bst -> option (outcome rid rv * ctx rid rv * bst)).
Definition tracks (d d' : engine) : Prop :=
  forall r c s c' s', writing r -> old r -> Inv c s c' s' -> follows (fun _ => Inv) (d r c s) (d' r c' s').
Lemma follows_ref Q (d d' : engine) r k k' c s c' s' : tracks d d' -> writing r -> old r -> Inv c s c' s' ->
  (forall v c1 s1 c1' s1', d r c s = Some (OOk v, c1, s1) -> Inv c1 s1 c1' s1' -> follows Q (run d (k v) c1 s1) (run d' (k' v) c1' s1')) ->
  follows Q (run d (PRef r k) c s) (run d' (PRef r k') c' s').
Proof.
  intros T W O I H. specialize (T r c s c' s' W O I). cbn [run]. unfold follows in T. destruct (d r c s) as [[[y c1] s1]|] eqn:E; [|exact Logic.I].
  destruct T as (c1' & s1' & E' & T). rewrite E'. destruct y as [v|e|x].
  - apply H; [reflexivity|]. now apply (T v).
  - cbn. exists c1', s1'. split; [reflexivity|discriminate].
  - cbn. exists c1', s1'. split; [reflexivity|discriminate].
Qed.
Lemma run_follows (d d' : engine) : tracks d d' -> forall p p', dsim p p' -> forall c s c' s', Inv c s c' s' -> follows (fun _ => Inv) (run d p c s) (run d' p' c' s').
Proof.
  intros T p p' H. induction H as [v|e|r k k' W O Hk IH|g k k' Hg Hk IH|n k k' F Hk IH|n v F]; intros c s c' s' I.
  - cbn. exists c', s'. auto.
  - cbn. exists c', s'. split; [reflexivity|discriminate].
  - apply follows_ref; auto.
  - cbn [run]. assert (E : g s' = g s).
    { destruct s as [a i], s' as [b j]. pose proof (inv_in _ _ _ _ I) as X. pose proof (inv_in' _ _ _ _ I) as Y. cbn in X, Y. subst. apply Hg. }
    assert (E0 : g s = g (mkBst [] None)). { destruct s as [a i]. pose proof (inv_in _ _ _ _ I) as X. cbn in X. subst. apply Hg. }
    rewrite E. destruct (g s) as [v|e] eqn:Eg; [apply IH; auto; congruence|]. cbn. exists c', s'. split; [reflexivity|discriminate].
  - unfold get_attr. cbn [run]. rewrite (inv_flat _ _ _ _ I n F). destruct (Marshal.lookup (s_obj s) n); [now apply IH|]. cbn. exists c', s'. split; [reflexivity|discriminate].
  - unfold assign. cbn [run]. destruct (as_value v) as [x|e]; [|cbn; exists c', s'; split; [reflexivity|discriminate]].
    cbn. exists c', (mkBst (set_attr (s_obj s') n x) (s_input s')). split; [reflexivity|]. intros _ _. destruct I. constructor; cbn [s_obj s_input]; auto.
    + intros i f pk Hf Hp. specialize (inv_nested0 i f pk Hf Hp). pose proof (F i f pk Hf Hp) as N. destruct (look (mkRid KPack i) (c_cache c)) as [w|].
      * destruct inv_nested0 as (u & b & E1 & E2 & E3 & E4 & E5). exists u, b. rewrite lookup_set_other by congruence. auto.
      * rewrite !lookup_set_other by congruence. exact inv_nested0.
    + intros m Fm. destruct (String.eqb_spec n m) as [E|N]; [subst m; now rewrite !lookup_set_same|]. rewrite !lookup_set_other by exact N. auto.
    + destruct inv_assigned0 as (U & ->). exists (U ++ [(n, x)]). now rewrite assign_all_app.
Qed.

(** The value of a nested field. *)
Lemma value_follows (d d' : engine) i f pk c s c' s' : nth_error (k_fields C) i = Some f -> nest i = Some pk -> Inv c s c' s' ->
  look (mkRid KPackValue i) (c_cache c) = None ->
  follows (fun v c1 s1 c1' s1' => Inv (pop rid_eqb (mkRid KPackValue i) (store (mkRid KPackValue i) v c1)) s1 (pop rid_eqb (mkRid KPackValue i) (store (mkRid KPackValue i) v c1')) s1')
    (run d (pack_value f i) c s) (run d' (pack_value (deep_field C nest i f) i) c' s').
Proof.
  intros Hf Hp I L. destruct (Hnest i f pk Hf Hp) as (B & _). unfold pack_value, deep_field. rewrite Hp. cbn [f_before f_name]. rewrite B. unfold get_attr. cbn [run].
  pose proof (inv_nested _ _ _ _ I i f pk Hf Hp) as N.
  assert (D : look (mkRid KPack i) (c_cache c) = None) by (destruct (look (mkRid KPack i) (c_cache c)); [destruct N as (v & b & _ & X & _); congruence|reflexivity]).
  rewrite D in N. destruct N as (N1 & N2). rewrite N2. destruct (Marshal.lookup (s_obj s) (f_name f)) as [v|]; cbn; exists c', s'; (split; [reflexivity|]); [|discriminate].
  intros w E. injection E as <-. destruct I. constructor; cbn [pop store c_nodes c_cache]; auto.
  - now rewrite inv_nodes0.
  - intros j K. exact (inv_ext0 j (in_remove1 _ _ _ K)).
  - intros q Oq. rewrite !look_cons. destruct (rid_eqb q (mkRid KPackValue i)); auto.
  - intros q w. rewrite look_cons. destruct (rid_eqb q (mkRid KPackValue i)) eqn:E; [|apply inv_typed0]. apply (proj1 (rid_eqb_spec _ _)) in E. subst q. intros _ X. discriminate.
  - intros j g pj w Hg Hj. rewrite look_cons. destruct (rid_eqb (mkRid KPackValue j) (mkRid KPackValue i)); [intros Ew; injection Ew as <-; eauto|]. apply (inv_value0 j g pj w Hg Hj).
  - intros j g pj Hg Hj. rewrite !look_cons, (rid_neq KPack j KPackValue i), (ext_old j (mkRid KPackValue i)) by discriminate.
    specialize (inv_nested0 j g pj Hg Hj). destruct (look (mkRid KPack j) (c_cache c)) as [w|] eqn:W; [|exact inv_nested0].
    destruct inv_nested0 as (x & b & E1 & E2 & E3). exists x, b. split; [exact E1|]. split; [|exact E3].
    destruct (rid_eqb (mkRid KPackValue j) (mkRid KPackValue i)) eqn:E; [|exact E2]. apply (proj1 (rid_eqb_spec _ _)) in E. congruence.
Qed.

(** A nested field is packed. *)
Lemma inv_packed i f pk x b c s c' s' c3 s3 : nth_error (k_fields C) i = Some f -> nest i = Some pk -> Inv c s c' s' ->
  look (mkRid KPackValue i) (c_cache c) = Some (RVal x) -> fst (pk x) = Ok b ->
  c_nodes c3 = c_nodes c' -> (forall r, old r -> look r (c_cache c3) = look r (c_cache c')) ->
  look (ext i) (c_cache c3) = Some (RBuf b) -> (forall j, j <> i -> look (ext j) (c_cache c3) = look (ext j) (c_cache c')) ->
  s_input s3 = None -> Marshal.lookup (s_obj s3) (f_name f) = Some (snd (pk x)) ->
  (forall n, n <> f_name f -> Marshal.lookup (s_obj s3) n = Marshal.lookup (s_obj s') n) -> (exists U, s_obj s3 = assign_all U o0) ->
  Inv (pop rid_eqb (mkRid KPack i) (store (mkRid KPack i) (RBuf b) c)) s (pop rid_eqb (mkRid KPack i) (store (mkRid KPack i) (RBuf b) c3)) s3.
Proof.
  intros Hf Hp I V P N3 O3 X3 Y3 I3 A3 B3 U3. destruct I. constructor; cbn [pop store c_nodes c_cache]; auto.
  - now rewrite N3, inv_nodes0.
  - intros j K. exact (inv_ext0 j (in_remove1 _ _ _ K)).
  - intros q Oq. rewrite !look_cons. destruct (rid_eqb q (mkRid KPack i)); auto. rewrite O3; auto.
  - intros q w. rewrite look_cons. destruct (rid_eqb q (mkRid KPack i)) eqn:E; [|apply inv_typed0]. apply (proj1 (rid_eqb_spec _ _)) in E. subst q. intros _ X. discriminate.
  - intros j g pj Hg Hj. rewrite !look_cons, (rid_neq KPackValue j KPack i), (ext_old j (mkRid KPack i)) by discriminate.
    destruct (rid_eqb (mkRid KPack j) (mkRid KPack i)) eqn:E.
    + apply (proj1 (rid_eqb_spec _ _)) in E. injection E as ->. assert (g = f) by congruence. assert (pj = pk) by congruence. subst g pj. exists x, b. auto.
    + assert (Nj : j <> i) by (intros ->; now rewrite (proj2 (rid_eqb_spec _ _) eq_refl) in E).
      assert (Nn : f_name g <> f_name f) by (intros En; destruct (same_name C Hnames _ _ _ _ Hf Hg En); contradiction).
      rewrite (Y3 j Nj), (B3 _ Nn). exact (inv_nested0 j g pj Hg Hj).
  - intros n F. rewrite B3; auto. intros ->. exact (F i f pk Hf Hp eq_refl).
Qed.
Notation eng n := (deref rid_eqb (nodes C) n).
Notation eng' n := (deref rid_eqb (nodes C') n).
Lemma pack_follows n i f pk c s c' s' : tracks (eng n) (eng' (S n)) -> nth_error (k_fields C) i = Some f -> nest i = Some pk -> Inv c s c' s' ->
  follows (fun v c1 s1 c1' s1' => Inv (pop rid_eqb (mkRid KPack i) (store (mkRid KPack i) v c1)) s1 (pop rid_eqb (mkRid KPack i) (store (mkRid KPack i) v c1')) s1')
    (run (eng n) (pack_ref f i) c s) (run (eng' (S n)) (pack_ref (deep_field C nest i f) i) c' s').
Proof.
  intros T Hf Hp I. destruct (Hnest i f pk Hf Hp) as (_ & Ha & Hpk). unfold pack_ref. apply follows_ref; auto; [exact Logic.I|discriminate|].
  intros v c1 s1 c1' s1' D1 I1. pose proof (deref_value_cached rid_eqb rid_eqb_spec _ _ _ _ _ _ _ _ D1) as V1.
  destruct (inv_value _ _ _ _ I1 i f pk v Hf Hp V1) as (x & ->).
  assert (M1 : ~ In (mkRid KPackValue i) (c_nodes c1)).
  { destruct (deref_kept rid_eqb rid_eqb_spec _ _ _ _ _ _ _ _ D1) as (K & _). rewrite K. destruct n; [discriminate|]. cbn [RefEngine.deref] in D1.
    destruct (mem rid_eqb (mkRid KPackValue i) (c_nodes c)) eqn:E; [discriminate|]. exact (proj1 (mem_not rid_eqb rid_eqb_spec _ _) E). }
  assert (Hn : exists k, n = S k) by (destruct n; [discriminate|eauto]). destruct Hn as (k & ->).
  assert (G : forall w c2 s2 c2' s2', Inv c2 s2 c2' s2' -> look (mkRid KPackValue i) (c_cache c2) = Some (RVal x) -> ~ In (mkRid KPackValue i) (c_nodes c2) ->
     (exists y, opt_num_bits w = Ok y) ->
     follows (fun v c1 s1 c1' s1' => Inv (pop rid_eqb (mkRid KPack i) (store (mkRid KPack i) v c1)) s1 (pop rid_eqb (mkRid KPack i) (store (mkRid KPack i) v c1')) s1')
       (run (eng (S k)) (ev_list (f_pack_args f) (fun args => ret (let* v := as_value (RVal x) in let* n := opt_num_bits w in let* b := f_pack f args v n in Ok (RBuf b)))) c2 s2)
       (run (eng' (S (S k))) (ev_list (f_pack_args (deep_field C nest i f)) (fun args => ret (let* v := as_value (RVal x) in let* n := opt_num_bits w in
           let* b := f_pack (deep_field C nest i f) args v n in Ok (RBuf b)))) c2' s2')).
  { clear c1 s1 c1' s1' D1 I1 V1 M1. intros w c2 s2 c2' s2' I2 V2 M2 (y & Hy). rewrite Ha. unfold deep_field. rewrite Hp. cbn [f_pack_args f_pack ev_list ev as_value rbind]. rewrite Hy. cbn [rbind]. rewrite Hpk.
    cbn [run]. pose proof (inv_nested _ _ _ _ I2 i f pk Hf Hp) as N2. remember (S k) as k1 eqn:Ek. cbn [RefEngine.deref].
    assert (M : mem rid_eqb (ext i) (c_nodes c2') = false). { apply (mem_not rid_eqb rid_eqb_spec). rewrite (inv_nodes _ _ _ _ I2). apply (inv_ext _ _ _ _ I2). }
    rewrite M. destruct (look (mkRid KPack i) (c_cache c2)) as [u|] eqn:L2.
    - destruct N2 as (x' & b & -> & E2 & E3 & E4 & E5). rewrite E4. assert (x' = x) by congruence. subst x'. rewrite E3. cbn [rbind ret lift run].
      exists c2', s2'. split; [reflexivity|]. intros v Ev. injection Ev as <-. apply (inv_packed i f pk x b c2 s2 c2' s2'); auto; [apply (inv_in' _ _ _ _ I2)|apply (inv_assigned _ _ _ _ I2)].
    - destruct N2 as (E4 & E5). rewrite E4. rewrite (deep_extra i f Hf). unfold extra_user. rewrite Hp. cbn [user_prog ev_list ev run].
      assert (D : RefEngine.deref rid_eqb (nodes C') k1 (mkRid KPackValue i) (push (ext i) c2') s2' = Some (OOk (RVal x), push (ext i) c2', s2')).
      { rewrite Ek. cbn [RefEngine.deref push c_nodes c_cache]. assert (Mv : mem rid_eqb (mkRid KPackValue i) (ext i :: c_nodes c2') = false).
        { apply (mem_not rid_eqb rid_eqb_spec). rewrite (inv_nodes _ _ _ _ I2). intros [E|E]; [discriminate|contradiction]. }
        rewrite Mv. rewrite (inv_old _ _ _ _ I2) by discriminate. now rewrite V2. }
      rewrite D. unfold store_packed. destruct (pk x) as [rb w'] eqn:Ep. cbn [fst]. destruct rb as [b|e]; cbn [rmap rbind ret lift run].
      + eexists _, _. split; [reflexivity|]. intros v Ev. injection Ev as <-.
        apply (inv_packed i f pk x b c2 s2 c2' s2'); auto; cbn [pop store push c_nodes c_cache s_obj s_input].
        * now rewrite Ep.
        * apply (remove1_head rid_eqb rid_eqb_spec).
        * intros r Or. now rewrite look_cons, (old_ext i r Or).
        * now rewrite look_cons, (proj2 (rid_eqb_spec _ _) eq_refl).
        * intros j Nj. rewrite look_cons. destruct (rid_eqb (ext j) (ext i)) eqn:E; [|reflexivity]. apply (proj1 (rid_eqb_spec _ _)) in E. unfold extra in E. injection E as E. lia.
        * apply (inv_in' _ _ _ _ I2).
        * rewrite lookup_set_same, Ep. reflexivity.
        * intros n Nn. apply lookup_set_other. congruence.
        * destruct (inv_assigned _ _ _ _ I2) as (U & ->). exists (U ++ [(f_name f, w')]). now rewrite assign_all_app.
      + eexists _, _. split; [reflexivity|discriminate]. }
  assert (Fs : f_size (deep_field C nest i f) = f_size f) by (unfold deep_field; rewrite Hp; reflexivity). rewrite Fs. unfold with_size. destruct (f_size f) as [z|].
  - apply G; auto. exact (size_ok (Some z)).
  - apply follows_ref; auto; [exact Logic.I|discriminate|]. intros w c2 s2 c2' s2' D2 I2.
    destruct (deref_kept rid_eqb rid_eqb_spec _ _ _ _ _ _ _ _ D2) as (K1 & _ & K2 & _).
    apply G; auto.
    + rewrite K1. exact M1.
    + apply (inv_typed _ _ _ _ I2 (mkRid KPackLen i) w); [|reflexivity]. exact (deref_value_cached rid_eqb rid_eqb_spec _ _ _ _ _ _ _ _ D2).
Qed.

Lemma deref_step K n r c s : deref rid_eqb (nodes K) (S n) r c s =
  if mem rid_eqb r (c_nodes c) then Some (OCyclic r, c, s)
  else match look r (c_cache c) with
       | Some v => Some (OOk v, c, s)
       | None => match run (deref rid_eqb (nodes K) n) (nodes K r) (push r c) s with
                 | None => None
                 | Some (OOk v, c', s') => Some (OOk v, pop rid_eqb r (store r v c'), s')
                 | Some (x, c', s') => Some (x, pop rid_eqb r (note_exc r c'), s')
                 end
       end.
Proof. reflexivity. Qed.
Lemma follows_weak (Q Q' : rv -> ctx rid rv -> bst -> ctx rid rv -> bst -> Prop) x x' :
  (forall v c1 s1 c1' s1', Q v c1 s1 c1' s1' -> Q' v c1 s1 c1' s1') -> follows Q x x' -> follows Q' x x'.
Proof. intros H F. destruct x as [[[y c1] s1]|]; [|exact Logic.I]. destruct F as (c1' & s1' & E & F). exists c1', s1'. split; auto. Qed.
Lemma special_dec r : {special r} + {~ special r}.
Proof.
  unfold special. destruct (kind_eq_dec (r_kind r) KPackValue) as [E|N1]; [|destruct (kind_eq_dec (r_kind r) KPack) as [E|N2]; [|right; intuition]].
  - destruct (nest (r_no r)) eqn:En; [left|right]; intuition congruence.
  - destruct (nest (r_no r)) eqn:En; [left|right]; intuition congruence.
Qed.
Lemma deref_tracks n : tracks (eng n) (eng' (S n)).
Proof.
  induction n as [|n IH]; intros r c s c' s' W O I; [exact Logic.I|].
  pose proof (deref_typed rid_eqb rid_eqb_spec (nodes C) len_ok nodes_len (S n) r c s) as T. rewrite deref_step in T. rewrite !deref_step. rewrite (inv_nodes _ _ _ _ I). destruct (mem rid_eqb r (c_nodes c)); [exists c', s'; split; [reflexivity|discriminate]|].
  rewrite (inv_old _ _ _ _ I r O). destruct (look r (c_cache c)) as [v|] eqn:L; [exists c', s'; auto|].
  pose proof (inv_push r _ _ _ _ O I) as Ip.
  assert (G : follows (fun v c1 s1 c1' s1' => len_ok r v -> Inv (pop rid_eqb r (store r v c1)) s1 (pop rid_eqb r (store r v c1')) s1')
       (run (eng n) (nodes C r) (push r c) s) (run (eng' (S n)) (nodes C' r) (push r c') s')).
  { destruct (special_dec r) as [(K & Nn)|N].
    - destruct r as [k i]. cbn [r_kind r_no] in K, Nn. destruct (nest i) as [pk|] eqn:Hp; [|contradiction]. destruct (nth_error (k_fields C) i) as [f|] eqn:Hf.
      + destruct K as [->| ->].
        * assert (E1 : nodes C (mkRid KPackValue i) = pack_value f i) by (unfold nodes; cbn [r_kind r_no]; now rewrite Hf).
          assert (E2 : nodes C' (mkRid KPackValue i) = pack_value (deep_field C nest i f) i) by (unfold nodes; cbn [r_kind r_no]; rewrite deep_nth, Hf; reflexivity).
          rewrite E1, E2. pose proof (value_follows (eng n) (eng' (S n)) i f pk _ _ _ _ Hf Hp Ip L) as X. 
          revert X. apply follows_weak. auto.
        * assert (E1 : nodes C (mkRid KPack i) = pack_ref f i) by (unfold nodes; cbn [r_kind r_no]; now rewrite Hf).
          assert (E2 : nodes C' (mkRid KPack i) = pack_ref (deep_field C nest i f) i) by (unfold nodes; cbn [r_kind r_no]; rewrite deep_nth, Hf; reflexivity).
          rewrite E1, E2. pose proof (pack_follows n i f pk _ _ _ _ IH Hf Hp Ip) as X. 
          revert X. apply follows_weak. auto.
      + assert (E1 : nodes C (mkRid k i) = PRaise NotModelled) by (unfold nodes; cbn [r_kind r_no]; rewrite Hf; now destruct K as [->| ->]).
        assert (E2 : nodes C' (mkRid k i) = PRaise NotModelled) by (unfold nodes; cbn [r_kind r_no]; rewrite deep_nth, Hf; now destruct K as [->| ->]).
        rewrite E1, E2. cbn [run]. eexists _, _. split; [reflexivity|discriminate].
    - pose proof (run_follows _ _ IH _ _ (ds_node r W O N) _ _ _ _ Ip) as X. 
      revert X. apply follows_weak. intros v c1 s1 c1' s1' X Lv. now apply inv_store. }
  unfold follows in *. destruct (run (eng n) (nodes C r) (push r c) s) as [[[y c1] s1]|]; [|exact Logic.I]. destruct G as (c1' & s1' & -> & G).
  destruct y as [v|e|q].
  - eexists _, _. split; [reflexivity|]. intros w Ew. injection Ew as <-. apply G; [reflexivity|]. exact (proj2 (T _ _ _ eq_refl (inv_typed _ _ _ _ I)) v eq_refl).
  - eexists _, _. split; [reflexivity|discriminate].
  - eexists _, _. split; [reflexivity|discriminate].
Qed.

(** ** pack() *)
Definition Winv (w w' : world) : Prop := Inv (w_ctx w) (w_st w) (w_ctx w') (w_st w') /\ w_out w' = w_out w /\ c_nodes (w_ctx w) = [].
Definition dsteps {A} (x x' : res A * world) : Prop :=
  match x with
  | (Ok a, w1) => exists w1', x' = (Ok a, w1') /\ Winv w1 w1'
  | (Err e, _) => fst x' = Err e
  end.
Lemma deep_fuel i f : nth_error (k_fields C) i = Some f -> (S (fuel C) <= fuel C')%nat.
Proof.
  intros H. assert (L : (0 < List.length (k_fields C))%nat) by (destruct (k_fields C); [destruct i; discriminate|cbn; lia]).
  unfold fuel, all_rids. cbn [List.length]. rewrite !app_length, !map_length, !seq_length.
  assert (Lf : List.length (k_fields C') = List.length (k_fields C)).
  { cbn [deepen k_fields]. rewrite map_length. unfold numbered. rewrite combine_length, seq_length. lia. }
  assert (Lu : List.length (k_users C') = (List.length (k_users C) + List.length (k_fields C))%nat).
  { cbn [deepen k_users]. rewrite app_length, map_length. unfold numbered. rewrite combine_length, seq_length. lia. }
  rewrite Lf, Lu. lia.
Qed.
Lemma dref_deep i f r w w' : nth_error (k_fields C) i = Some f -> writing r -> rid_in C r -> Winv w w' -> dsteps (dref C r w) (dref C' r w').
Proof.
  intros Hf W R (I & E & N). pose proof (deref_tracks (fuel C) r _ _ _ _ W (old_in r R) I) as T. pose proof (deref_ends C Hok r (w_ctx w) (w_st w) R N) as D.
  unfold dref. destruct (eng (fuel C) r (w_ctx w) (w_st w)) as [[[y c1] s1]|] eqn:Ed; [|contradiction]. destruct T as (c1' & s1' & T1 & T2).
  rewrite (deref_more rid_eqb rid_eqb_spec (nodes C') _ _ (deep_fuel i f Hf) _ _ _ _ T1).
  destruct y as [v|e|x]; cbn [dsteps fst]; [|reflexivity..]. exists (mkW c1' s1' (w_out w')). split; [reflexivity|]. split; [exact (T2 v eq_refl)|]. split; [exact E|].
  cbn [w_ctx]. destruct (deref_kept rid_eqb rid_eqb_spec _ _ _ _ _ _ _ _ Ed) as (K & _). congruence.
Qed.
Lemma dbind {A B} (m m' : stM world A) (k k' : A -> stM world B) w w' : dsteps (m w) (m' w') -> (forall a w1 w1', m w = (Ok a, w1) -> Winv w1 w1' -> dsteps (k a w1) (k' a w1')) ->
  dsteps (sbind m k w) (sbind m' k' w').
Proof.
  unfold sbind, dsteps at 1. destruct (m w) as [[a|e] w1]; intros H K.
  - destruct H as (w1' & -> & H). now apply K.
  - destruct (m' w') as [[a|e'] w1']; cbn in H; [discriminate|]. injection H as ->. reflexivity.
Qed.
Lemma dwrap {A} (m m' : stM world A) w w' : dsteps (m w) (m' w') -> dsteps (wrap m w) (wrap m' w').
Proof.
  unfold wrap, dsteps at 1. destruct (m w) as [[a|e] w1]; intros H.
  - destruct H as (w1' & -> & H). exists w1'. auto.
  - destruct (m' w') as [[a|e'] w1']; cbn in H; [discriminate|]. injection H as ->. reflexivity.
Qed.
Lemma dlift {A} (m : res A) w w' : Winv w w' -> dsteps (slift m w) (slift m w').
Proof. intros H. destruct m; [exists w'; split; [reflexivity|exact H]|reflexivity]. Qed.
Lemma pack_field_deep i f w w' : nth_error (k_fields C) i = Some f -> Winv w w' -> dsteps (pack_field C i f w) (pack_field C' i (deep_field C nest i f) w').
Proof.
  intros Hf H. pose proof (nth_error_In _ _ Hf) as Hin. pose proof (proj1 (Forall_forall _ _) (proj2 (proj1 Hfun)) f Hin) as (P1 & P2 & P3 & _).
  pose proof (proj1 (Forall_forall _ _) (proj2 Hok) f Hin) as (I1 & I2 & I3 & _).
  assert (F : field_no C i) by (apply nth_error_Some; congruence).
  unfold pack_field. assert (Ei : f_pack_if (deep_field C nest i f) = f_pack_if f) by (unfold deep_field; destruct (nest i); reflexivity). rewrite Ei.
  apply dbind; [apply (dref_deep i f); auto using plain_writing|]. intros c w1 w1' _ H1. destruct (truthy c); [|exists w1'; split; [reflexivity|exact H1]]. apply dwrap.
  apply dbind; [apply (dref_deep i f); auto; [exact Logic.I|now apply in_field]|]. intros p w2 w2' _ H2.
  apply dbind; [apply (dref_deep i f); auto; [exact Logic.I|now apply in_field]|]. intros q w3 w3' _ H3.
  apply dbind; [now apply dlift|]. intros b w4 w4' _ H4. apply dbind; [now apply dlift|]. intros l w5 w5' _ (H5 & E5 & N5).
  unfold out_set. rewrite E5. destruct (output_set b l (w_out w5)) as [[[]|e] x]; cbn; [|reflexivity]. eexists. split; [reflexivity|]. split; [exact H5|]. auto.
Qed.
Lemma pack_fields_deep l : incl l (numbered C) -> forall w w', Winv w w' ->
  dsteps (sforeach l (fun p => pack_field C (fst p) (snd p)) w)
         (sforeach (map (fun p => (fst p, deep_field C nest (fst p) (snd p))) l) (fun p => pack_field C' (fst p) (snd p)) w').
Proof.
  induction l as [|[i f] l IH]; intros Hl w w' H; cbn [sforeach map fst snd]; [exists w'; split; [reflexivity|exact H]|].
  apply dbind; [apply pack_field_deep; [apply numbered_in, Hl; now left|exact H]|]. intros [] w1 w1' _ H1. apply IH; [intros x Hx; apply Hl; now right|exact H1].
Qed.
End Engine.
Lemma start_deep o : Winv o (start_pack o) (start_pack o).
Proof.
  split; [|split; reflexivity]. constructor; cbn; auto; try discriminate. now exists [].
Qed.
Theorem deep_result o : fst (buffer_pack C' o) = fst (buffer_pack C o).
Proof.
  pose proof (pack_fields_deep o _ (incl_refl _) _ _ (start_deep o)) as H. unfold buffer_pack. rewrite deep_numbered.
  destruct (sforeach (numbered C) _ (start_pack o)) as [[[]|e] w]; cbn [dsteps] in H.
  - destruct H as (w' & -> & I & E & N). cbn [fst]. rewrite E. reflexivity.
  - destruct (sforeach (map _ (numbered C)) _ (start_pack o)) as [[[]|e'] w']; cbn in H; [discriminate|]. injection H as ->. reflexivity.
Qed.

(** The object afterwards. *)
Definition after_pack (K : cls) (o : attrs) : world := snd (sforeach (numbered K) (fun p => pack_field K (fst p) (snd p)) (start_pack o)).
Definition packed_in (o : attrs) (i : nat) : Prop := look (mkRid KPack i) (c_cache (w_ctx (after_pack C o))) <> None.
Lemma quiet : quiet_before C.
Proof. eapply Forall_impl; [|exact (proj2 Hfun)]. intros f H. cbv beta in *. destruct (f_before f) as [[]|]; auto. contradiction. Qed.
Theorem deep_object o bytes o1 : buffer_pack C o = (Ok bytes, o1) -> exists o2, buffer_pack C' o = (Ok bytes, o2)
  /\ (forall i f pk, nth_error (k_fields C) i = Some f -> nest i = Some pk ->
        (packed_in o i -> exists v b, Marshal.lookup o (f_name f) = Some v /\ fst (pk v) = Ok b /\ Marshal.lookup o2 (f_name f) = Some (snd (pk v))
             /\ look (mkRid KPack i) (c_cache (w_ctx (after_pack C o))) = Some (RBuf b))
        /\ (~ packed_in o i -> Marshal.lookup o2 (f_name f) = Marshal.lookup o (f_name f)))
  /\ (forall n, flat n -> Marshal.lookup o2 n = Marshal.lookup o1 n)
  /\ exists U, o2 = assign_all U o.
Proof.
  intros H. pose proof (pack_fields_deep o _ (incl_refl _) _ _ (start_deep o)) as D. unfold packed_in, after_pack. unfold buffer_pack in *. rewrite deep_numbered.
  destruct (sforeach (numbered C) (fun p => pack_field C (fst p) (snd p)) (start_pack o)) as [[[]|e] w] eqn:Ew; cbn [dsteps] in D; [|discriminate].
  assert (G : good C o (c_cache (w_ctx w)) (w_st w)).
  { apply (pack_fields_good C (proj1 Hfun) Hnames quiet o _ _ _ (incl_refl _) Ew). split; [reflexivity|]. split; [intros n _; reflexivity|]. intros. split; [|split]; discriminate. }
  destruct D as (w' & -> & I & E & N). rewrite E. injection H as H <-. rewrite <- H. exists (s_obj (w_st w')). split; [reflexivity|]. cbn [snd]. split; [|split].
  - intros i f pk Hf Hp. pose proof (inv_nested _ _ _ _ _ I i f pk Hf Hp) as X. destruct (Hnest i f pk Hf Hp) as (B & _).
    destruct (look (mkRid KPack i) (c_cache (w_ctx w))) as [u|] eqn:Lu.
    + split; [|intros Z; contradiction Z; discriminate]. intros _. destruct X as (v & b & -> & X1 & X2 & _ & X3). exists v, b.
      destruct (proj1 (proj2 (proj2 (proj2 G) i f Hf)) _ X1) as (v' & Ev & V1 & V2). injection Ev as <-. unfold value_source in V2. rewrite B in V2. auto.
    + split; [intros Z; contradiction|]. intros _. rewrite (proj2 X). apply (proj1 (proj2 G)). eapply not_assigned; eauto.
  - intros n F. exact (inv_flat _ _ _ _ _ I n F).
  - exact (inv_assigned _ _ _ _ _ I).
Qed.
End Deep.

(** Packing again: two runs of pack() whose objects differ in computed attributes only go alike. *)
From Verif Require Import Base BaseProofs Marshal Range IoBuffer FieldSpec FieldFacts RefEngine RefSpec RefProofs BufferModel BufferSpec BufferFacts BufferPack
  BufferConds BufferHooks BufferNested RepeatSpec.
From Coq Require Import ZArith List Bool String Lia.
Import ListNotations.
Open Scope list_scope.
Open Scope Z_scope.

(** ** Assignments *)
Lemma assign_all_app U W a : assign_all (U ++ W) a = assign_all W (assign_all U a).
Proof. unfold assign_all. apply fold_left_app. Qed.
Lemma assign_all_cons n v W a : assign_all ((n, v) :: W) a = assign_all W (set_attr a n v).
Proof. reflexivity. Qed.
Lemma lookup_assign_other W : forall a n, ~ In n (map fst W) -> Marshal.lookup (assign_all W a) n = Marshal.lookup a n.
Proof.
  induction W as [|[m v] W IH]; intros a n Hn; [reflexivity|]. cbn [map fst In] in Hn. rewrite assign_all_cons, IH by tauto. apply lookup_set_other. tauto.
Qed.
Lemma lookup_assign_in W : forall a b n, In n (map fst W) -> Marshal.lookup (assign_all W a) n = Marshal.lookup (assign_all W b) n.
Proof.
  induction W as [|[m v] W IH]; intros a b n Hn; [destruct Hn|]. rewrite !assign_all_cons.
  destruct (in_dec String.string_dec n (map fst W)) as [D|D]; [auto|]. destruct Hn as [E|Hn]; [|contradiction]. cbn [fst] in E. subst m.
  now rewrite !lookup_assign_other, !lookup_set_same by exact D.
Qed.
Definition has (a : attrs) (n : name) : Prop := Marshal.lookup a n <> None.
Lemma has_set a n v m : has (set_attr a n v) m <-> m = n \/ has a m.
Proof.
  unfold has. destruct (String.string_dec n m) as [->|N].
  - rewrite lookup_set_same. split; [auto|discriminate].
  - rewrite lookup_set_other by exact N. split; [auto|]. intros [->|H]; [contradiction|exact H].
Qed.
Lemma has_assign W : forall a n, In n (map fst W) \/ has a n -> has (assign_all W a) n.
Proof.
  induction W as [|[m v] W IH]; intros a n H; [destruct H as [[]|H]; exact H|]. rewrite assign_all_cons. apply IH. rewrite has_set. cbn [map fst In] in H.
  intuition.
Qed.
Lemma set_set_same (a : attrs) n v w : set_attr (set_attr a n v) n w = set_attr a n w.
Proof.
  induction a as [|[k x] a IH]; cbn [set_attr]; [now rewrite String.eqb_refl|]. destruct (String.eqb k n) eqn:E; cbn [set_attr]; rewrite E; [reflexivity|]. now rewrite IH.
Qed.
Lemma set_set_other (a : attrs) n v m w : n <> m -> has a n -> has a m -> set_attr (set_attr a n v) m w = set_attr (set_attr a m w) n v.
Proof.
  intros N. unfold has. induction a as [|[k x] a IH]; cbn [Marshal.lookup set_attr]; [now intros []|].
  destruct (String.eqb_spec k n) as [Kn|Kn]; destruct (String.eqb_spec k m) as [Km|Km]; cbn [set_attr]; intros H1 H2; try congruence.
  - rewrite (proj2 (String.eqb_neq k m) Km), (proj2 (String.eqb_eq k n) Kn). reflexivity.
  - rewrite (proj2 (String.eqb_eq k m) Km), (proj2 (String.eqb_neq k n) Kn). reflexivity.
  - rewrite (proj2 (String.eqb_neq k m) Km), (proj2 (String.eqb_neq k n) Kn). now rewrite IH.
Qed.
Lemma set_attr_self (a : attrs) n v : Marshal.lookup a n = Some v -> set_attr a n v = a.
Proof.
  induction a as [|[k x] a IH]; cbn [Marshal.lookup set_attr]; [discriminate|]. destruct (String.eqb_spec k n) as [->|N]; [congruence|]. intros H. now rewrite IH.
Qed.
Lemma assign_hidden W : forall a n v, In n (map fst W) -> (forall m, m = n \/ In m (map fst W) -> has a m) -> assign_all W (set_attr a n v) = assign_all W a.
Proof.
  induction W as [|[m w] W IH]; intros a n v Hn Ha; [destruct Hn|]. rewrite !assign_all_cons. cbn [map fst In] in *.
  destruct (String.string_dec m n) as [->|N]; [now rewrite set_set_same|]. destruct Hn as [Hn|Hn]; [contradiction|].
  rewrite set_set_other by auto. apply IH; [exact Hn|]. intros k Hk. apply has_set. right. apply Ha. intuition.
Qed.
Lemma assign_kept W : forall b, (forall n, In n (map fst W) -> has b n) -> (forall n, In n (map fst W) -> Marshal.lookup (assign_all W b) n = Marshal.lookup b n) ->
  assign_all W b = b.
Proof.
  induction W as [|[n v] W IH]; intros b Hb Hl; [reflexivity|]. rewrite assign_all_cons in *. cbn [map fst In] in *.
  destruct (in_dec String.string_dec n (map fst W)) as [D|D].
  - rewrite assign_hidden in * by (auto; intros m [->|]; auto). apply IH; auto.
  - assert (E : set_attr b n v = b).
    { apply set_attr_self. rewrite <- (Hl n) by auto. now rewrite lookup_assign_other, lookup_set_same by exact D. }
    rewrite E in *. apply IH; auto.
Qed.
Lemma assign_twice W a : assign_all W (assign_all W a) = assign_all W a.
Proof.
  apply assign_kept; intros n Hn; [apply has_assign; auto|]. now apply lookup_assign_in.
Qed.

(** ** Two runs *)
Section Runs.
Variable C : cls.
Variables (computed : name -> Prop) (nested : nat -> bool) (alike : nat -> value -> value -> Prop).
Hypothesis Hrep : repeatable C computed nested alike.
Hypothesis Hnames : NoDup (map f_name (k_fields C)).
Notation same := (same_inputs C computed nested alike).
Notation look := (RefEngine.lookup rid_eqb).

Definition nested_of (r : rid) : option nat :=
  match r_kind r with
  | KPackValue | KField => if nested (r_no r) then Some (r_no r) else None
  | KUser => match nth_error (k_users C) (r_no r) with
             | Some (UFieldRef i) => if nested i then Some i else None
             | Some (UAttr n) => match find_field n (numbered C) with Some i => if nested i then Some i else None | None => None end
             | _ => None
             end
  | _ => None
  end.
Definition both (i : nat) (v w : rv) : Prop := v = w \/ exists x y f, v = RVal x /\ w = RVal y /\ alike i x y /\ nth_error (k_fields C) i = Some f /\ nested i = true.
Definition vrel (r : rid) (v w : rv) : Prop := match nested_of r with Some i => both i v w | None => v = w end.
Lemma vrel_refl r v : vrel r v v.
Proof. unfold vrel. destruct (nested_of r); [left|]; reflexivity. Qed.
Lemma simple_eq r v w : simple_rid C nested r -> vrel r v w -> v = w.
Proof.
  intros (P & N). unfold vrel, nested_of, is_nested, plain_rid in *. destruct P as [E|E]; rewrite E in *.
  - destruct (nth_error (k_users C) (r_no r)) as [[]|]; auto.
    + destruct (find_field n (numbered C)); auto. now rewrite N.
    + now rewrite N.
  - now rewrite N.
Qed.

Inductive psim (Q : rv -> rv -> Prop) : bprog -> bprog -> Prop :=
| ps_ret v w : Q v w -> psim Q (PRet v) (PRet w)
| ps_raise e : psim Q (PRaise e) (PRaise e)
| ps_ref r k k' : writing r -> (forall v w, vrel r v w -> psim Q (k v) (k' w)) -> psim Q (PRef r k) (PRef r k')
| ps_ctx (P : rv -> rv -> Prop) f f' k k' :
    (forall a b, same a b -> exists x y W, f (mkBst a None) = (x, mkBst (assign_all W a) None) /\ f' (mkBst b None) = (y, mkBst (assign_all W b) None)
      /\ Forall (fun p => computed (fst p)) W
      /\ match x, y with Ok v, Ok w => P v w | Err e, Err e' => e = e' | _, _ => False end) ->
    (forall v w, P v w -> psim Q (k v) (k' w)) -> psim Q (PCtx f k) (PCtx f' k').

Section Post.
Variable Q : rv -> rv -> Prop.
Hypothesis Qr : forall v, Q v v.
Lemma ps_res m : psim Q (ret m) (ret m).
Proof. destruct m; constructor; auto. Qed.
Lemma ps_simple r k : simple_rid C nested r -> (forall v, psim Q (k v) (k v)) -> psim Q (PRef r k) (PRef r k).
Proof. intros S H. constructor; [apply plain_writing, S|]. intros v w V. now rewrite (simple_eq _ _ _ S V). Qed.
(** Other references of the engine whose values are equal. *)
Lemma ps_own r k : writing r -> nested_of r = None -> (forall v, psim Q (k v) (k v)) -> psim Q (PRef r k) (PRef r k).
Proof. intros W N H. constructor; [exact W|]. intros v w V. unfold vrel in V. rewrite N in V. now subst w. Qed.
Lemma ps_look g k : (forall a b, same a b -> g (mkBst a None) = g (mkBst b None)) -> (forall v, psim Q (k v) (k v)) ->
  psim Q (PCtx (fun s => (g s, s)) k) (PCtx (fun s => (g s, s)) k).
Proof.
  intros G H. apply (ps_ctx _ eq); [|intros v w <-; apply H]. intros a b S. exists (g (mkBst a None)), (g (mkBst a None)), []. cbn [assign_all fold_left]. rewrite (G a b S).
  split; [reflexivity|]. split; [reflexivity|]. split; [constructor|]. destruct (g (mkBst b None)); reflexivity.
Qed.
Lemma ps_ev a k : simple_arg C nested a -> (forall v, psim Q (k v) (k v)) -> psim Q (ev a k) (ev a k).
Proof. intros Ha H. destruct a; cbn [ev]; auto. now apply ps_simple. Qed.
Lemma ps_ev_list l : forall k, Forall (simple_arg C nested) l -> (forall vs, psim Q (k vs) (k vs)) -> psim Q (ev_list l k) (ev_list l k).
Proof. induction l as [|a l IH]; intros k Hl H; cbn [ev_list]; auto. inversion Hl; subst. apply ps_ev; auto. Qed.
Lemma ps_ev_refs l : forall k, Forall (fun r => writing r /\ nested_of r = None) l -> (forall vs, psim Q (k vs) (k vs)) -> psim Q (ev_refs l k) (ev_refs l k).
Proof. induction l as [|a l IH]; intros k Hl H; cbn [ev_refs]; auto. inversion Hl as [|? ? (W & N) ?]; subst. apply ps_own; auto. Qed.
Lemma ps_if_pack p u : psim Q p p -> psim Q (if_pack p u) (if_pack p u).
Proof.
  intros H. apply (ps_ctx _ (fun v w => v = rbool true /\ w = rbool true)); [|intros v w (-> & ->); exact H].
  intros a b S. exists (Ok (rbool true)), (Ok (rbool true)), []. repeat split. constructor.
Qed.
Lemma ps_some w k : (forall l, psim Q (k l) (k l)) -> psim Q (some_ranges w k) (some_ranges w k).
Proof. intros H. unfold some_ranges. destruct (as_ranges w) as [[|]|]; auto; constructor. Qed.
Lemma ps_total : psim Q (total_prog C) (total_prog C).
Proof.
  apply ps_look; [reflexivity|]. intros z. destruct z as [[]| | | |]; try (constructor; auto; fail). apply ps_if_pack. apply ps_ev_refs; [|intros; apply ps_res].
  apply Forall_forall. intros r Hr. apply in_map_iff in Hr. destruct Hr as (p & <- & _). split; [exact Logic.I|reflexivity].
Qed.
Lemma ps_after i f : psim Q (after_prog i f) (after_prog i f).
Proof. apply ps_if_pack. apply ps_own; [exact Logic.I|reflexivity|]. intros. apply ps_res. Qed.
Lemma ps_fun g : repeats C computed nested alike g -> psim Q (PCtx (fun s => let '(r, o) := g (s_obj s) in (r, mkBst o (s_input s))) PRet)
  (PCtx (fun s => let '(r, o) := g (s_obj s) in (r, mkBst o (s_input s))) PRet).
Proof.
  intros G. apply (ps_ctx _ eq); [|intros v w <-; constructor; auto]. intros a b S. destruct (G a b S) as (x & W & E1 & E2 & F). exists x, x, W. cbn [s_obj s_input]. rewrite E1, E2.
  split; [reflexivity|]. split; [reflexivity|]. split; [exact F|]. destruct x; reflexivity.
Qed.
End Post.

Lemma find_none n l : find_field n l = None -> forall i f, In (i, f) l -> f_name f <> n.
Proof.
  induction l as [|[j g] l IH]; cbn [find_field]; intros H i f Hin; [destruct Hin|]. destruct (String.eqb_spec (f_name g) n) as [Eg|N]; [discriminate|].
  destruct Hin as [E|Hin]; [injection E as <- <-; exact N|]. eapply IH; eauto.
Qed.
Lemma same_attr_free a b n : same a b -> ~ computed n -> (forall i f, nth_error (k_fields C) i = Some f -> f_name f <> n) -> Marshal.lookup a n = Marshal.lookup b n.
Proof. intros S Hc Hf. destruct (S n Hc) as [E|(i & f & v & w & E & _ & N & _)]; [exact E|]. destruct (Hf _ _ E N). Qed.

Lemma user_sim i u : nth_error (k_users C) i = Some u -> psim (vrel (mkRid KUser i)) (user_prog C u) (user_prog C u).
Proof.
  intros E. pose proof (proj1 (Forall_forall _ _) (proj1 Hrep) u (nth_error_In _ _ E)) as Hu. set (Q := vrel (mkRid KUser i)).
  assert (Qr : forall v, Q v v) by (intros; apply vrel_refl).
  destruct u; cbn [repeats_user] in Hu; cbn [user_prog].
  - constructor. auto.
  - apply ps_ev; [apply Hu|]. intros. apply ps_ev; [apply Hu|]. intros. now apply ps_res.
  - apply ps_ev; [apply Hu|]. intros. now apply ps_res.
  - apply ps_ev; [apply Hu|]. intros. constructor. auto.
  - apply ps_ev; [apply Hu|]. intros. apply ps_ev; [apply Hu|]. intros. now apply ps_res.
  - apply ps_ev; [apply Hu|]. intros. now apply ps_res.
  - apply ps_ev_list; [apply Hu|]. intros. now apply ps_res.
  - apply ps_simple; [apply Hu|]. intros. apply ps_some. intros. apply ps_ev; [apply Hu|]. intros. now apply ps_res.
  - apply ps_simple; [apply Hu|]. intros. apply ps_some. intros. apply ps_ev; [apply Hu|]. intros. apply ps_ev; [apply Hu|]. intros. now apply ps_res.
  - destruct (nth_error (k_fields C) i0) as [f|]; [|constructor]. now apply ps_after.
  - now apply ps_total.
  - destruct a as [v|r]; cbn [ev]; [now apply ps_res|]. constructor; [now apply plain_writing|]. intros v w V. unfold vrel in V.
    destruct (nested_of r) as [j|] eqn:Ej; [|subst w; now apply ps_res]. destruct V as [->|(x & y & f & -> & -> & V & Ef & Nj)]; [now apply ps_res|].
    destruct (proj2 Hrep j f Ef) as (_ & _ & _ & _ & Hn). destruct (Hn Nj) as (_ & Ha). destruct (Ha _ _ V) as (L & _). rewrite L. now apply ps_res.
  - apply ps_ev_list; [apply Hu|]. intros. now apply ps_res.
  - apply ps_ev_list; [apply Hu|]. intros. now apply ps_res.
  - apply ps_look; [reflexivity|]. intros. constructor. auto.
  - destruct (find_field n (numbered C)) as [j|] eqn:Ef.
    + apply ps_look; [reflexivity|]. intros _. constructor; [exact Logic.I|]. intros v w V. constructor. unfold Q, vrel, nested_of in *. cbn [r_kind r_no] in *. now rewrite E, Ef.
    + apply ps_look; [|intros; constructor; auto]. intros a b S. cbn [s_obj]. rewrite (same_attr_free a b n S (Hu eq_refl)); [reflexivity|].
      intros k f Hk. apply (find_none _ _ Ef k f). apply numbered_in. exact Hk.
  - constructor; [exact Logic.I|]. intros v w V. constructor. unfold Q, vrel, nested_of in *. cbn [r_kind r_no] in *. now rewrite E.
  - apply ps_ev_list; [apply Hu|]. intros. now apply ps_res.
  - apply ps_ev_list; [apply Hu|]. intros. apply ps_fun; [auto|]. apply Hu.
Qed.

Lemma nested_none i : nested i = false -> forall k, k = KPackValue \/ k = KField -> nested_of (mkRid k i) = None.
Proof. intros H k [->| ->]; unfold nested_of; cbn [r_kind r_no]; now rewrite H. Qed.
Lemma assign_sim n v (Q : rv -> rv -> Prop) : computed n -> (forall v, Q v v) -> psim Q (assign n v) (assign n v).
Proof.
  intros Hn Qr. apply (ps_ctx _ eq); [|intros v' w <-; constructor; auto]. intros a b S. cbn [s_obj s_input]. destruct (as_value v) as [x|e].
  - exists (Ok v), (Ok v), [(n, x)]. split; [reflexivity|]. split; [reflexivity|]. split; [repeat constructor; exact Hn|]. reflexivity.
  - exists (Err e), (Err e), []. repeat split. constructor.
Qed.
Lemma same_name i f j g : nth_error (k_fields C) i = Some f -> nth_error (k_fields C) j = Some g -> f_name g = f_name f -> j = i /\ g = f.
Proof.
  intros Hi Hj E. assert (j = i); [|subst; split; congruence]. apply (proj1 (NoDup_nth_error _) Hnames).
  - rewrite map_length. apply nth_error_Some. congruence.
  - rewrite !nth_error_map, Hi, Hj. cbn. congruence.
Qed.
Lemma value_sim i f : nth_error (k_fields C) i = Some f -> psim (vrel (mkRid KPackValue i)) (pack_value f i) (pack_value f i).
Proof.
  intros E. destruct (proj2 Hrep i f E) as (_ & _ & _ & Hb & Hn). assert (Qr : forall v, vrel (mkRid KPackValue i) v v) by (intros; apply vrel_refl).
  unfold pack_value. destruct (f_before f) as [[g|x|r]|] eqn:B.
  - apply ps_look; [reflexivity|]. intros _. constructor; [exact Logic.I|]. intros v w V. unfold vrel, nested_of in V. cbn [r_kind] in V. subst w. now apply assign_sim.
  - now apply assign_sim.
  - apply ps_look; [reflexivity|]. intros _. apply ps_simple; [apply Hb|]. intros v. now apply assign_sim.
  - apply (ps_ctx _ (vrel (mkRid KPackValue i))); [|intros v w V; constructor; exact V]. intros a b S. cbn [s_obj].
    destruct (S _ Hb) as [L|(j & g & v & w & E2 & Nj & Nn & L1 & L2 & A)].
    + rewrite L. exists (match Marshal.lookup b (f_name f) with Some v => Ok (RVal v) | None => Err AttributeError end),
        (match Marshal.lookup b (f_name f) with Some v => Ok (RVal v) | None => Err AttributeError end), []. repeat split; [constructor|].
      destruct (Marshal.lookup b (f_name f)); [apply Qr|reflexivity].
    + destruct (same_name _ _ _ _ E E2 Nn) as (-> & ->). rewrite L1, L2. exists (Ok (RVal v)), (Ok (RVal w)), []. repeat split; [constructor|].
      unfold vrel, nested_of. cbn [r_kind r_no]. rewrite Nj. right. exists v, w, f. auto.
Qed.
Lemma pack_sim i f : nth_error (k_fields C) i = Some f -> psim eq (pack_ref f i) (pack_ref f i).
Proof.
  intros E. destruct (proj2 Hrep i f E) as (_ & _ & Ha & _ & Hn). unfold pack_ref. constructor; [exact Logic.I|]. intros v w V.
  assert (G : forall n args, (let* v := as_value v in let* n := opt_num_bits n in let* b := f_pack f args v n in Ok (RBuf b))
            = (let* v := as_value w in let* n := opt_num_bits n in let* b := f_pack f args v n in Ok (RBuf b))).
  { intros n args. unfold vrel, nested_of in V. cbn [r_kind r_no] in V. destruct (nested i) eqn:Ni; [|now subst w].
    destruct V as [->|(x & y & f' & -> & -> & A & _)]; [reflexivity|]. destruct (Hn eq_refl) as (_ & Hal). destruct (Hal _ _ A) as (_ & P).
    cbn [as_value rbind]. destruct (opt_num_bits n); cbn [rbind]; [|reflexivity]. now rewrite P. }
  assert (K : forall n, psim eq
     (ev_list (f_pack_args f) (fun args => ret (let* v := as_value v in let* n := opt_num_bits n in let* b := f_pack f args v n in Ok (RBuf b))))
     (ev_list (f_pack_args f) (fun args => ret (let* v := as_value w in let* n := opt_num_bits n in let* b := f_pack f args v n in Ok (RBuf b))))).
  { intros n. assert (forall l k k', Forall (simple_arg C nested) l -> (forall vs, psim eq (k vs) (k' vs)) -> psim eq (ev_list l k) (ev_list l k')) as L.
    { induction l as [|a l IH]; intros k k' Hl H; cbn [ev_list]; auto. inversion Hl; subst. destruct a as [c|r]; cbn [ev].
      - apply IH; auto.
      - constructor; [apply plain_writing; now apply H2|]. intros x y V'. rewrite (simple_eq _ _ _ H2 V'). apply IH; auto. }
    apply L; [exact Ha|]. intros args. rewrite G. apply ps_res. reflexivity. }
  unfold with_size. destruct (f_size f); [apply K|]. constructor; [exact Logic.I|]. intros n n' V'. unfold vrel, nested_of in V'. cbn [r_kind] in V'. subst n'. apply K.
Qed.
Lemma node_sim r : writing r -> psim (vrel r) (nodes C r) (nodes C r).
Proof.
  intros Hr. assert (Qr : forall v, vrel r v v) by (intros; apply vrel_refl). destruct r as [k i]. unfold nodes. cbn [r_kind r_no]. unfold writing in Hr. cbn [r_kind] in Hr.
  destruct k; try contradiction; try (destruct (nth_error (k_fields C) i) as [f|] eqn:E; [|constructor]; destruct (proj2 Hrep i f E) as (Hw & Hi & Ha & Hb & Hn); cbn [field_node]).
  - apply ps_simple; [exact Hw|]. intros w. destruct (as_ranges w) as [l|]; [|constructor]. destruct (has_overlaps l) as [[|]|]; try constructor.
    destruct (list_is_open l); [|constructor; auto]. apply ps_own; [exact Logic.I|reflexivity|]. intros. now apply ps_res.
  - apply ps_simple; [exact Hw|]. intros w. destruct (as_ranges w) as [l|]; [|constructor]. destruct (list_is_open l); [constructor; auto|].
    apply ps_own; [exact Logic.I|reflexivity|]. intros. now apply ps_res.
  - unfold before_value. destruct (f_before f) as [[g|x|r]|] eqn:Eh; [|constructor..]. destruct Hb as (_ & Hg).
    apply (ps_ctx _ eq); [|intros v w <-; constructor; auto]. intros a b S. destruct (Hg a b S) as (x & W & E1 & E2 & F). exists x, x, W. cbn [s_obj s_input].
    destruct (g a) as [y a'], (g b) as [y' b']. injection E1 as E1 A1. injection E2 as E2 A2.
    rewrite E1, E2, A1, A2. split; [reflexivity|]. split; [reflexivity|]. split; [exact F|]. destruct x; reflexivity.
  - now apply value_sim.
  - unfold vrel, nested_of. cbn [r_kind]. now apply pack_sim.
  - apply ps_if_pack. constructor; [exact Logic.I|]. intros v w V. constructor. exact V.
  - destruct (nth_error (k_users C) i) as [u|] eqn:E; [|constructor]. now apply user_sim.
  - now apply ps_total.
Qed.

(** ** The engine *)
Variables o1 o2 : attrs.
Hypothesis Hsame : same o1 o2.
Definition states (s1 s2 : bst) : Prop :=
  exists W, Forall (fun p => computed (fst p)) W /\ s1 = mkBst (assign_all W o1) None /\ s2 = mkBst (assign_all W o2) None.
Definition contexts (c1 c2 : ctx rid rv) : Prop :=
  c_nodes c1 = c_nodes c2 /\ Forall2 (fun p q => fst p = fst q /\ vrel (fst p) (snd p) (snd q)) (c_cache c1) (c_cache c2).
Definition outcomes (r : rv -> rv -> Prop) (x y : outcome rid rv) : Prop :=
  match x, y with OOk v, OOk w => r v w | ORaise e, ORaise e' => e = e' | OCyclic a, OCyclic b => a = b | _, _ => False end.
Definition runs (r : rv -> rv -> Prop) (x y : option (outcome rid rv * ctx rid rv * bst)) : Prop :=
  match x, y with
  | None, None => True
  | Some (a, c1, s1), Some (b, c2, s2) => outcomes r a b /\ contexts c1 c2 /\ states s1 s2
  | _, _ => False
  end.
Lemma same_assigned W : Forall (fun p => computed (fst p)) W -> same (assign_all W o1) (assign_all W o2).
Proof.
  intros F n Hn. assert (N : ~ In n (map fst W)).
  { intros Hin. apply in_map_iff in Hin. destruct Hin as (p & <- & Hp). apply Hn. exact (proj1 (Forall_forall _ _) F p Hp). }
  rewrite !lookup_assign_other by exact N. exact (Hsame n Hn).
Qed.
Lemma contexts_look c1 c2 r : contexts c1 c2 ->
  match look r (c_cache c1), look r (c_cache c2) with Some v, Some w => vrel r v w | None, None => True | _, _ => False end.
Proof.
  intros (_ & F). induction F as [|[a v] [b w] l l' (E & V) F IH]; cbn [RefEngine.lookup]; [exact Logic.I|]. cbn [fst snd] in *. subst b.
  destruct (rid_eqb r a) eqn:Er; [|exact IH]. apply (proj1 (rid_eqb_spec r a)) in Er. now rewrite Er.
Qed.
Lemma run_sim (d : rid -> ctx rid rv -> bst -> option (outcome rid rv * ctx rid rv * bst)) :
  (forall r c1 c2 s1 s2, writing r -> contexts c1 c2 -> states s1 s2 -> runs (vrel r) (d r c1 s1) (d r c2 s2)) ->
  forall Q p q, psim Q p q -> forall c1 c2 s1 s2, contexts c1 c2 -> states s1 s2 -> runs Q (run d p c1 s1) (run d q c2 s2).
Proof.
  intros Hd Q p q H. induction H as [v w V|e|r k k' Wr Hk IH|P f f' k k' Hf Hk IH]; intros c1 c2 s1 s2 Hc Hs; cbn [run].
  - cbn. auto.
  - cbn. auto.
  - specialize (Hd r c1 c2 s1 s2 Wr Hc Hs). destruct (d r c1 s1) as [[[x c1'] s1']|], (d r c2 s2) as [[[y c2'] s2']|]; try contradiction; [|exact Logic.I].
    destruct Hd as (V & Hc' & Hs'). destruct x, y; try contradiction; cbn [outcomes] in V; [now apply IH|cbn; auto..].
  - destruct Hs as (W & F & -> & ->). destruct (Hf _ _ (same_assigned W F)) as (x & y & U & E1 & E2 & FU & M). rewrite E1, E2.
    assert (S : states (mkBst (assign_all U (assign_all W o1)) None) (mkBst (assign_all U (assign_all W o2)) None)).
    { exists (W ++ U). split; [now apply Forall_app|]. now rewrite !assign_all_app. }
    destruct x as [v|e], y as [w|e']; try contradiction; [now apply IH|]. cbn. auto.
Qed.
Lemma deref_sim n : forall r c1 c2 s1 s2, writing r -> contexts c1 c2 -> states s1 s2 ->
  runs (vrel r) (deref rid_eqb (nodes C) n r c1 s1) (deref rid_eqb (nodes C) n r c2 s2).
Proof.
  induction n as [|n IH]; intros r c1 c2 s1 s2 Hr Hc Hs; [exact Logic.I|]. cbn [RefEngine.deref].
  rewrite (proj1 Hc). destruct (mem rid_eqb r (c_nodes c2)) eqn:M; [cbn; auto|].
  pose proof (contexts_look c1 c2 r Hc) as L. destruct (look r (c_cache c1)) as [v|], (look r (c_cache c2)) as [w|]; try contradiction; [cbn; auto|].
  assert (Hp : contexts (push r c1) (push r c2)) by (split; cbn [push c_nodes c_cache]; [f_equal; apply Hc|apply Hc]).
  pose proof (run_sim _ IH _ _ _ (node_sim r Hr) _ _ _ _ Hp Hs) as H.
  destruct (run (deref rid_eqb (nodes C) n) (nodes C r) (push r c1) s1) as [[[x c1'] s1']|], (run (deref rid_eqb (nodes C) n) (nodes C r) (push r c2) s2) as [[[y c2'] s2']|]; try contradiction; [|exact Logic.I].
  destruct H as (V & (N & K) & S). destruct x, y; try contradiction; cbn [outcomes] in V; (split; [exact V|]); (split; [|exact S]); split; cbn [pop store note_exc c_nodes c_cache]; try congruence; try exact K.
  constructor; [|exact K]. cbn [fst snd]. auto.
Qed.

Definition worlds (w1 w2 : world) : Prop := contexts (w_ctx w1) (w_ctx w2) /\ states (w_st w1) (w_st w2) /\ w_out w1 = w_out w2.
Definition steps {A} (R : A -> A -> Prop) (x y : res A * world) : Prop :=
  match x, y with
  | (Ok a, w1), (Ok b, w2) => R a b /\ worlds w1 w2
  | (Err e, w1), (Err e', w2) => e = e' /\ worlds w1 w2
  | _, _ => False
  end.
Lemma dref_sim r w1 w2 : writing r -> worlds w1 w2 -> steps (vrel r) (dref C r w1) (dref C r w2).
Proof.
  intros Hr (Hc & Hs & Ho). unfold dref. pose proof (deref_sim (fuel C) r _ _ _ _ Hr Hc Hs) as H.
  destruct (deref rid_eqb (nodes C) (fuel C) r (w_ctx w1) (w_st w1)) as [[[x c1] s1]|], (deref rid_eqb (nodes C) (fuel C) r (w_ctx w2) (w_st w2)) as [[[y c2] s2]|]; try contradiction.
  - destruct H as (V & H1 & H2). destruct x, y; try contradiction; cbn [outcomes] in V; try subst; exact (conj V (conj H1 (conj H2 Ho))) || exact (conj eq_refl (conj H1 (conj H2 Ho))).
  - exact (conj eq_refl (conj Hc (conj Hs Ho))).
Qed.
Lemma sbind_sim {A B} (R : A -> A -> Prop) (Q : B -> B -> Prop) (m1 m2 : stM world A) (k1 k2 : A -> stM world B) w1 w2 :
  steps R (m1 w1) (m2 w2) -> (forall a b v1 v2, R a b -> worlds v1 v2 -> steps Q (k1 a v1) (k2 b v2)) -> steps Q (sbind m1 k1 w1) (sbind m2 k2 w2).
Proof.
  unfold sbind, steps. destruct (m1 w1) as [[a|e] v1], (m2 w2) as [[b|e'] v2]; try contradiction; intros (H1 & H2) K; auto. now apply K.
Qed.
Lemma slift_sim {A} (m : res A) w1 w2 : worlds w1 w2 -> steps eq (slift m w1) (slift m w2).
Proof. intros H. unfold slift. destruct m; cbn; auto. Qed.
Lemma wrap_sim {A} (m1 m2 : stM world A) w1 w2 : steps eq (m1 w1) (m2 w2) -> steps eq (wrap m1 w1) (wrap m2 w2).
Proof.
  unfold wrap. destruct (m1 w1) as [[a|e] v1], (m2 w2) as [[b|e'] v2]; try contradiction; intros (G1 & G2); cbn [steps]; [auto|]. subst e'. auto.
Qed.
Lemma pack_field_sim i f w1 w2 : nth_error (k_fields C) i = Some f -> worlds w1 w2 -> steps eq (pack_field C i f w1) (pack_field C i f w2).
Proof.
  intros Hf Hw. destruct (proj2 Hrep i f Hf) as (_ & Hi & _). unfold pack_field.
  apply (sbind_sim (vrel (f_pack_if f))); [apply dref_sim; [apply plain_writing, Hi|exact Hw]|]. intros c c' v1 v2 Hc Hv. rewrite <- (simple_eq _ _ _ Hi Hc).
  destruct (truthy c); [|cbn; auto].
  assert (G : steps eq ((p <- dref C (mkRid KPack i);; q <- dref C (mkRid KPackPos i);; b <- slift (as_buf p);; l <- slift (as_ranges q);; out_set b l) v1)
                       ((p <- dref C (mkRid KPack i);; q <- dref C (mkRid KPackPos i);; b <- slift (as_buf p);; l <- slift (as_ranges q);; out_set b l) v2)).
  { apply (sbind_sim eq); [exact (dref_sim (mkRid KPack i) v1 v2 Logic.I Hv)|]. intros p p' u1 u2 <- Hu.
    apply (sbind_sim eq); [exact (dref_sim (mkRid KPackPos i) u1 u2 Logic.I Hu)|]. intros q q' t1 t2 <- Ht.
    apply (sbind_sim eq); [now apply slift_sim|]. intros b b' x1 x2 <- Hx. apply (sbind_sim eq); [now apply slift_sim|]. intros l l' y1 y2 <- Hy.
    destruct Hy as (Y1 & Y2 & Y3). unfold out_set. rewrite Y3. destruct (output_set b l (w_out y2)) as [[[]|e] x]; exact (conj eq_refl (conj Y1 (conj Y2 eq_refl))). }
  now apply wrap_sim.
Qed.
Lemma pack_fields_sim l : incl l (numbered C) -> forall w1 w2, worlds w1 w2 ->
  steps eq (sforeach l (fun p => pack_field C (fst p) (snd p)) w1) (sforeach l (fun p => pack_field C (fst p) (snd p)) w2).
Proof.
  induction l as [|[i f] l IH]; intros Hl w1 w2 Hw; cbn [sforeach fst snd]; [cbn; auto|].
  apply (sbind_sim eq); [apply pack_field_sim; [apply numbered_in, Hl; now left|exact Hw]|]. intros a b v1 v2 _ Hv. apply IH; [intros x Hx; apply Hl; now right|exact Hv].
Qed.
Theorem pack_alike : exists r W, Forall (fun p => computed (fst p)) W
  /\ buffer_pack C o1 = (r, assign_all W o1) /\ buffer_pack C o2 = (r, assign_all W o2).
Proof.
  assert (Hw : worlds (start_pack o1) (start_pack o2)).
  { split; [|split; [|reflexivity]]; cbn [start_pack w_ctx w_st]; [split; [reflexivity|constructor]|]. exists []. repeat split. constructor. }
  pose proof (pack_fields_sim _ (incl_refl _) _ _ Hw) as H. unfold buffer_pack.
  destruct (sforeach (numbered C) _ (start_pack o1)) as [[[]|e] w1], (sforeach (numbered C) _ (start_pack o2)) as [[[]|e'] w2]; try contradiction;
    destruct H as (H1 & H2 & (W & F & S1 & S2) & H3); rewrite S1, S2; cbn [s_obj].
  - rewrite H3. eexists _, W. split; [exact F|]. split; reflexivity.
  - subst e'. eexists _, W. split; [exact F|]. split; reflexivity.
Qed.
End Runs.


(** ** Packing again *)
Lemma same_refl C computed nested alike a : same_inputs C computed nested alike a a.
Proof. intros n _. now left. Qed.
Lemma same_computed C computed nested alike W a : Forall (fun p => computed (fst p)) W -> same_inputs C computed nested alike a (assign_all W a).
Proof.
  intros F n Hn. left. symmetry. apply lookup_assign_other. intros Hin. apply in_map_iff in Hin. destruct Hin as (p & <- & Hp). apply Hn.
  exact (proj1 (Forall_forall _ _) F p Hp).
Qed.
Theorem pack_again C computed nested alike o r o' : repeatable C computed nested alike -> NoDup (map f_name (k_fields C)) ->
  buffer_pack C o = (r, o') -> buffer_pack C o' = (r, o').
Proof.
  intros Hr Hn H. destruct (pack_alike C _ _ _ Hr Hn o o (same_refl _ _ _ _ _)) as (r1 & W & F & E & _). rewrite H in E. injection E as <- ->.
  destruct (pack_alike C _ _ _ Hr Hn o (assign_all W o) (same_computed _ _ _ _ W o F)) as (r2 & U & FU & E1 & E2).
  rewrite H in E1. injection E1 as <- E1. rewrite E2, E1, assign_twice. reflexivity.
Qed.
Lemma no_functions_repeatable C : no_functions C -> NoDup (map f_name (k_fields C)) -> repeatable C (assigned_name C) (fun _ => false) (fun _ _ _ => False).
Proof.
  intros ((Hu & Hf) & Hb) Hn.
  assert (S : forall r, plain_rid r -> simple_rid C (fun _ => false) r).
  { intros r P. split; [exact P|]. unfold is_nested. destruct (r_kind r); try reflexivity. destruct (nth_error (k_users C) (r_no r)) as [[]|]; try reflexivity.
    destruct (find_field n (numbered C)); reflexivity. }
  assert (A : forall a, plain_arg a -> simple_arg C (fun _ => false) a) by (intros [v|r] P; cbn in *; auto).
  assert (L : forall l, Forall plain_arg l -> Forall (simple_arg C (fun _ => false)) l) by (intros l H; eapply Forall_impl; eauto).
  split.
  - eapply Forall_impl; [|exact Hu]. intros u P. destruct u; cbn [plain_user repeats_user] in *; try solve [intuition].
    intros H (g & G1 & G2 & G3). apply In_nth_error in G1. destruct G1 as (i & G1).
    refine (find_none n (numbered C) H i g _ G3). now apply numbered_in.
  - intros i f E. pose proof (nth_error_In _ _ E) as Hin. pose proof (proj1 (Forall_forall _ _) Hf f Hin) as (P1 & P2 & P3 & P4 & P5 & P6 & P7).
    pose proof (proj1 (Forall_forall _ _) Hb f Hin) as B. cbv beta in B. split; [auto|]. split; [auto|]. split; [auto|]. split; [|discriminate].
    destruct (f_before f) as [[g|x|r]|] eqn:Eb.
    + contradiction.
    + exists f. repeat split; auto. congruence.
    + split; [|auto]. exists f. repeat split; auto. congruence.
    + intros (g & G1 & G2 & G3). apply In_nth_error in G1. destruct G1 as (j & G1). destruct (same_name C Hn _ _ _ _ E G1 G3) as (-> & ->). contradiction.
Qed.

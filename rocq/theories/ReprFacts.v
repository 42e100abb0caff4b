(** Objects that were read can be printed. *)
From Verif Require Import Base IntCodec BitStringIO Stream MinMax Marshal MarshalInd FieldSpec FieldFacts SimFacts ArrayFacts FloatEq Repr ReprSpec.
From Coq Require Import ZArith List Bool String Lia.
Import ListNotations.
Open Scope Z_scope.

Section Facts.
Variables (percent_d percent_f : Z -> string) (py_repr : value -> res string).
Hypothesis PR : forall v, exists t, py_repr v = Ok t.
Notation to_repr := (to_repr percent_d percent_f py_repr).
Notation field_repr := (field_repr percent_d percent_f py_repr).
Notation bf_repr := (bf_repr percent_d py_repr).

Fixpoint fields_repr (fs : list field) (a : attrs) : res (list string) :=
  match fs with
  | [] => Ok []
  | f :: r => let* x := field_repr f a in let* xs := fields_repr r a in Ok (x :: xs)
  end.
Lemma fields_repr_fix fs a :
  (fix go (fs : list field) : res (list string) :=
     match fs with
     | [] => Ok []
     | f :: r => let* x := field_repr f a in let* xs := go r in Ok (x :: xs)
     end) fs = fields_repr fs a.
Proof. induction fs as [|f r IH]; cbn; [auto|]. now rewrite IH. Qed.

Lemma repr_struct cls cctx fs a :
  to_repr (MStruct cls cctx fs) (VObj cls a)
  = let* texts := fields_repr fs a in Ok (cls ++ "(" ++ join ", " texts ++ ")")%string.
Proof. cbn [Repr.to_repr]. now rewrite String.eqb_refl, fields_repr_fix. Qed.
Lemma repr_group fs a :
  field_repr (FGroup fs) a = let* texts := fields_repr fs a in Ok (join ", " texts).
Proof. cbn [Repr.field_repr]. now rewrite fields_repr_fix. Qed.

Lemma repr_named n m d a : field_repr (FField n m d) a = let* s := to_repr m (field_value n d a) in Ok (n ++ "=" ++ s)%string.
Proof. reflexivity. Qed.
Lemma repr_optional n m p d a : field_repr (FOpt n m p d) a = let* s := to_repr m (field_value n d a) in Ok (n ++ "=" ++ s)%string.
Proof. reflexivity. Qed.
Lemma repr_const n m k a : field_repr (FConst n m k) a = let* s := to_repr m k in Ok (n ++ "=" ++ s ++ " (const)")%string.
Proof. reflexivity. Qed.
Lemma repr_anon m a : field_repr (FAnon m) a = to_repr m VNone.
Proof. reflexivity. Qed.
Lemma repr_bits bs a : field_repr (FBits bs) a = let* texts := rmap_list (bf_repr a) bs in Ok (join ", " texts).
Proof. reflexivity. Qed.
Lemma repr_posbits n bs a : field_repr (FPosBits n bs) a = let* texts := rmap_list (bf_repr a) bs in Ok (join ", " texts).
Proof. reflexivity. Qed.
Lemma field_value_same n d a a' : lookup a n = lookup a' n -> field_value n d a = field_value n d a'.
Proof. unfold field_value. now intros ->. Qed.
Lemma field_value_set n d a v : field_value n d (set_attr a n v) = v.
Proof. unfold field_value. now rewrite lookup_set_same. Qed.

Lemma repr_sel key mapping d cls a :
  to_repr (MSel key mapping d) (VObj cls a)
  = match sel_choice mapping d cls with
    | Some m => to_repr m (VObj cls a)
    | None => Err NotModelled
    end.
Proof.
  cbn [Repr.to_repr]. induction mapping as [|[k m] r IH]; cbn; auto.
  destruct m; auto. destruct (String.eqb cls0 cls) eqn:E; auto.
Qed.
Lemma repr_funsel choices func mm cls a :
  to_repr (MFunSel choices func mm) (VObj cls a)
  = match class_choice choices cls with
    | Some m => to_repr m (VObj cls a)
    | None => Err NotModelled
    end.
Proof.
  cbn [Repr.to_repr]. induction choices as [|m r IH]; cbn; auto.
  destruct m; auto. destruct (String.eqb cls0 cls) eqn:E; auto.
Qed.

Lemma rmap_ok {A B} (f : A -> res B) l : Forall (fun x => exists y, f x = Ok y) l -> exists ys, rmap_list f l = Ok ys.
Proof. induction 1 as [|x l (y & E) _ (ys & IH)]; cbn; eauto. rewrite E. cbn [rbind]. rewrite IH. cbn. eauto. Qed.
Lemma rmap_ok_inv {A B} (f : A -> res B) l : forall ys, rmap_list f l = Ok ys -> Forall (fun x => exists y, f x = Ok y) l.
Proof.
  induction l as [|x l IH]; intros ys E; cbn in E; [constructor|]. destruct (f x) as [y|] eqn:Ef; cbn in E; [|discriminate].
  destruct (rmap_list f l) as [ys'|] eqn:El; cbn in E; [|discriminate]. constructor; eauto.
Qed.

(** *** Equal values print alike *)
Fixpoint list_eq (x y : list value) : bool :=
  match x, y with
  | [], [] => true
  | a :: x', b :: y' => py_eq a b && list_eq x' y'
  | _, _ => false
  end.
Lemma py_eq_list x y : py_eq (VList x) (VList y) = list_eq x y.
Proof. reflexivity. Qed.

Lemma iter_eq v k l : py_eq v k = true -> py_iter v = Ok l -> v = k \/ exists l', v = VList l /\ k = VList l' /\ list_eq l l' = true.
Proof.
  destruct v, k; try discriminate; intros E I; cbn in I; try discriminate; cbn [py_eq] in E.
  - destruct (list_eq_dec _ b b0); [left; congruence|discriminate].
  - destruct (list_eq_dec _ s s0); [left; congruence|discriminate].
  - right. assert (l0 = l) by congruence. subst. eauto.
Qed.

Lemma array_equal el v k t : (forall v k t, py_eq v k = true -> to_repr el v = Ok t -> exists t', to_repr el k = Ok t') ->
  py_eq v k = true ->
  (let* l := py_iter v in let* texts := rmap_list (to_repr el) l in Ok ("[ " ++ join ", " texts ++ " ]")%string) = Ok t ->
  exists t', (let* l := py_iter k in let* texts := rmap_list (to_repr el) l in Ok ("[ " ++ join ", " texts ++ " ]")%string) = Ok t'.
Proof.
  intros H E R. destruct (py_iter v) as [l|] eqn:I; cbn [rbind] in R; [|discriminate].
  destruct (rmap_list (to_repr el) l) as [ts|] eqn:M; cbn [rbind] in R; [|discriminate].
  destruct (iter_eq v k l E I) as [<-|(l' & -> & -> & L)].
  - rewrite I. cbn [rbind]. rewrite M. cbn. eauto.
  - cbn [py_iter rbind]. destruct (rmap_ok (to_repr el) l') as (ts' & ->); [|cbn; eauto].
    apply rmap_ok_inv in M. clear - M L H. revert l' L. induction M as [|x l (t & Ex) _ IH]; intros [|y l'] L; try discriminate; constructor.
    + cbn in L. apply andb_prop in L as [L _]. eauto.
    + cbn in L. apply andb_prop in L as [_ L]. auto.
Qed.

Lemma show_int_equal v k t : py_eq v k = true -> show_int percent_d v = Ok t -> exists t', show_int percent_d k = Ok t'.
Proof.
  intros E H. destruct v; try discriminate; destruct k; try discriminate; cbn [show_int] in *; eauto; cbn [py_eq] in E.
  - apply andb_prop in E as [-> _]. eauto.
  - destruct (float_finite pattern) eqn:F; [|discriminate]. destruct (float_finite pattern0) eqn:F'; eauto. exfalso.
    apply andb_prop in E as [E X]. apply andb_prop in E as [N1 N2]. apply orb_prop in X as [X|X].
    + apply Z.eqb_eq in X. congruence.
    + apply andb_prop in X as [_ X]. apply Z.eqb_eq in X. unfold float_finite in F'. apply negb_false_iff, Z.eqb_eq in F'. clear - F' X.
      change (2 ^ 63) with (2 ^ 52 * 2 ^ 11) in X. rewrite Z.rem_mul_r in X by (vm_compute; congruence). rewrite F' in X.
      assert (0 <= pattern0 mod 2 ^ 52) by (apply Z.mod_pos_bound; reflexivity). revert H X. generalize (pattern0 mod 2 ^ 52). intros. change (2 ^ 52 * 2047) with 9218868437227405312 in X. lia.
Qed.
Lemma show_float_equal v k t : py_eq v k = true -> show_float percent_f v = Ok t -> exists t', show_float percent_f k = Ok t'.
Proof.
  intros E H. destruct v; try discriminate; destruct k; try discriminate; cbn [show_float] in *; eauto; cbn [py_eq] in E.
  - apply Z.eqb_eq in E. subst. eauto.
  - destruct (int_eq_convertible _ _ E) as (q & ->). cbn. eauto.
Qed.

Lemma repr_equal : forall m v k t, py_eq v k = true -> to_repr m v = Ok t -> exists t', to_repr m k = Ok t'.
Proof.
  refine (proj1 (marshal_field_ind (fun m => forall v k t, py_eq v k = true -> to_repr m v = Ok t -> exists t', to_repr m k = Ok t')
    (fun _ => True) _ _ _ _ _ _ _ _ _ _ _ _ _ _ _ _ _ _ _ _ _ _)); auto; intros; cbn [Repr.to_repr] in *; auto.
  - eapply show_int_equal; eauto.
  - eapply show_float_equal; eauto.
  - eauto.
  - eapply array_equal; eauto.
  - eapply array_equal; eauto.
  - eapply array_equal; eauto.
  - destruct v; try discriminate. destruct k; try discriminate. eauto.
  - destruct v; discriminate.
  - destruct v; discriminate.
Qed.

Lemma unread_repr m v : prints_unread m v -> exists t, to_repr m v = Ok t.
Proof.
  destruct m; cbn [prints_unread Repr.to_repr]; intros H; try apply PR; try contradiction.
  - destruct H as (z & ->). cbn. eauto.
  - destruct H as (p & ->). cbn. eauto.
  - eauto.
  - rewrite H. cbn. eauto.
  - rewrite H. cbn. eauto.
  - rewrite H. cbn. eauto.
  - rewrite H. cbn. eauto.
Qed.

(** *** Bit fields *)
Lemma bm_read_repr m b v b' : bm_read m b = (Ok v, b') -> exists t, bm_repr percent_d py_repr m v = Ok t.
Proof.
  destruct m; cbn [bm_read bm_repr]; intros E; eauto; unfold sbind in E.
  - destruct (bs_read _ b) as [[z|] b1]; [|discriminate]. unfold sret in E. assert (v = VInt z) by congruence. subst. cbn. eauto.
  - destruct (bm_pos_read _ _ _ b) as [[z|] b1]; [|discriminate]. unfold sret in E. assert (v = VInt z) by congruence. subst. cbn. eauto.
Qed.
Lemma bm_equal m v k t : py_eq v k = true -> bm_repr percent_d py_repr m v = Ok t -> exists t', bm_repr percent_d py_repr m k = Ok t'.
Proof. destruct m; cbn [bm_repr]; intros E R; eauto; eapply show_int_equal; eauto. Qed.

Definition bit_names (bs : list bitfield) : list name := flat_map (fun b => match b with BField n _ _ => [n] | _ => [] end) bs.

Lemma read_bits_repr bs : Forall bits_print_unread bs -> NoDup (bit_names bs) -> forall b a u b' a',
  sforeach bs read_bitfield (b, a) = (Ok u, (b', a')) ->
  (forall n, ~ In n (bit_names bs) -> lookup a' n = lookup a n)
  /\ forall x, (forall n, In n (bit_names bs) -> lookup x n = lookup a' n) -> Forall (fun f => exists t, bf_repr x f = Ok t) bs.
Proof.
  induction bs as [|f bs IH]; intros P N b a u b' a' E; cbn in E; try unfold sret in E.
  - assert (a' = a) by congruence. subst. auto.
  - inversion P as [|? ? P1 P2]; subst. unfold sbind in E. destruct (read_bitfield f (b, a)) as [[u1|] [b1 a1]] eqn:E1; [|discriminate].
    unfold read_bitfield in E1. cbn [fst snd] in E1. destruct (bm_read (bf_marshal f) b) as [[v|] b2] eqn:R; [|discriminate].
    destruct f as [n m d|m|n m k]; cbn [bf_marshal bit_names flat_map] in *.
    + cbn [app] in N. inversion N as [|? ? N1 N2]; subst. assert (a1 = set_attr a n v) by congruence. subst a1.
      destruct (IH P2 N2 _ _ _ _ _ E) as [O G]. split.
      * intros n' H. rewrite O by (intros H'; apply H; right; exact H'). apply lookup_set_other. intros ->. apply H. now left.
      * intros x X. constructor.
        -- unfold bf_repr. cbn [bf_marshal bf_value]. rewrite X by now left. rewrite O by exact N1. rewrite lookup_set_same.
           destruct (bm_read_repr _ _ _ _ R) as (t & ->). cbn. eauto.
        -- apply G. intros n' H. apply X. now right.
    + assert (a1 = a) by congruence. subst a1. destruct (IH P2 N _ _ _ _ _ E) as [O G]. split; auto.
      intros x X. constructor; [|now apply G]. unfold bf_repr. cbn [bf_marshal bf_value]. cbn in P1.
      destruct m; try easy; cbn [bm_repr]; [cbn; eauto|]. destruct (PR VNone) as (t & ->). cbn. eauto.
    + destruct (py_eq v k) eqn:K; [|discriminate]. assert (a1 = a) by congruence. subst a1. destruct (IH P2 N _ _ _ _ _ E) as [O G]. split; auto.
      intros x X. constructor; [|now apply G]. unfold bf_repr. cbn [bf_marshal bf_value].
      destruct (bm_read_repr _ _ _ _ R) as (t & T). destruct (bm_equal _ _ _ _ K T) as (t' & ->). cbn. eauto.
Qed.

Lemma read_container_repr size bs : Forall bits_print_unread bs -> NoDup (bit_names bs) -> forall s a u s' a',
  read_bit_container size bs (s, a) = (Ok u, (s', a')) ->
  (forall n, ~ In n (bit_names bs) -> lookup a' n = lookup a n)
  /\ forall x, (forall n, In n (bit_names bs) -> lookup x n = lookup a' n) -> exists t, rmap_list (bf_repr x) bs = Ok t.
Proof.
  intros P N s a u s' a' E. unfold read_bit_container, sbind, on_stream in E. cbn [fst snd] in E.
  destruct (sread size s) as [[data|] s1]; [|discriminate]. cbn [fst snd] in E.
  destruct (sforeach bs read_bitfield (bs_new_bytes data, a)) as [[u1|] [b1 a1]] eqn:L; [|discriminate].
  assert (a1 = a') by congruence. subst. destruct (read_bits_repr bs P N _ _ _ _ _ L) as [O G]. split; auto.
  intros x X. now apply rmap_ok, G.
Qed.

(** *** Initial values *)
Fixpoint opt_defaults (f : field) : list (name * value) :=
  match f with
  | FOpt n _ _ d => [(n, d)]
  | FGroup fs => flat_map opt_defaults fs
  | _ => []
  end.
Lemma opt_names : forall f n d, In (n, d) (opt_defaults f) -> In n (stored_names f).
Proof.
  refine (proj2 (marshal_field_ind (fun _ => True) (fun f => forall n d, In (n, d) (opt_defaults f) -> In n (stored_names f))
    _ _ _ _ _ _ _ _ _ _ _ _ _ _ _ _ _ _ _ _ _ _)); auto; try easy.
  - intros n m p d _ n' d' [E|[]]. assert (n = n') by congruence. subst. now left.
  - intros fs F n d I. cbn in *. apply in_flat_map in I as (f & If & I). apply in_flat_map. exists f. split; auto.
    rewrite Forall_forall in F. eauto.
Qed.
Definition unread_or (d : value) (o : option value) : Prop := o = None \/ o = Some d.
Lemma prepare_default : forall f n d a, NoDup (stored_names f) -> In (n, d) (opt_defaults f) -> unread_or d (lookup a n) ->
  unread_or d (lookup (prepare_instance [] a f) n).
Proof.
  refine (proj2 (marshal_field_ind (fun _ => True) (fun f => forall n d a, NoDup (stored_names f) -> In (n, d) (opt_defaults f) -> unread_or d (lookup a n) ->
    unread_or d (lookup (prepare_instance [] a f) n)) _ _ _ _ _ _ _ _ _ _ _ _ _ _ _ _ _ _ _ _ _ _)); auto; try easy.
  - intros n m p d _ n' d' a _ [E|[]] U. assert (n = n') by congruence. assert (d = d') by congruence. subst.
    cbn. unfold prepare_field. cbn [lookup]. destruct (lookup a n') as [w|] eqn:L; [now rewrite L|]. right. apply lookup_set_same.
  - intros fs F n d a N I U. cbn [prepare_instance opt_defaults stored_names] in *. revert a U. induction F as [|f fs Hf F IH]; [easy|]. intros a U. cbn [fold_left].
    cbn in I, N. assert (Nf : NoDup (stored_names f)) by (clear - N; induction (stored_names f); [constructor|]; cbn in N; inversion N; subst; constructor; [rewrite in_app_iff in *; tauto|auto]).
    assert (Nr : NoDup (flat_map stored_names fs)) by (clear - N; induction (stored_names f); [auto|]; cbn in N; inversion N; subst; auto).
    apply in_app_or in I as [I|I].
    + pose proof (opt_names _ _ _ I) as In1.
      assert (X : ~ In n (flat_map stored_names fs)).
      { clear - N In1. induction (stored_names f) as [|y l IHl]; [easy|]. cbn in N. inversion N; subst. destruct In1 as [->|]; [rewrite in_app_iff in *; tauto|auto]. }
      specialize (Hf n d a Nf I U). clear - Hf X. revert Hf. generalize (prepare_instance [] a f). clear a f. induction fs as [|f fs IH]; intros a U; cbn; auto.
      cbn in X. rewrite in_app_iff in X. apply IH; [tauto|]. rewrite prepare_instance_other by tauto. exact U.
    + assert (J : In n (flat_map stored_names fs)) by (apply in_flat_map in I as (g & Ig & I); apply in_flat_map; exists g; split; auto; eapply opt_names; eauto).
      apply IH; auto. rewrite prepare_instance_other; auto.
      clear - N J. intros K. induction (stored_names f) as [|y l IHl]; [easy|]. cbn in N. inversion N; subst. destruct K as [->|]; [rewrite in_app_iff in *; tauto|auto].
Qed.
Lemma nodup_app_l {A} (l r : list A) : NoDup (l ++ r) -> NoDup l.
Proof. induction l; intros N; [constructor|]. cbn in N. inversion N; subst. constructor; [rewrite in_app_iff in *; tauto|auto]. Qed.
Lemma nodup_app_r {A} (l r : list A) : NoDup (l ++ r) -> NoDup r.
Proof. induction l; intros N; auto. cbn in N. inversion N; auto. Qed.
Lemma nodup_app_out {A} (l r : list A) x : NoDup (l ++ r) -> In x l -> ~ In x r.
Proof. induction l; intros N []; cbn in N; inversion N; subst; [rewrite in_app_iff in *; tauto|auto]. Qed.

Lemma lookup_absent {A} (l : list (name * A)) n : ~ In n (map fst l) -> lookup l n = None.
Proof. induction l as [|[k v] l IH]; cbn; auto. intros H. destruct (String.eqb_spec k n); [subst; tauto|apply IH; tauto]. Qed.

Lemma new_default fs n d : NoDup (map fst (class_attrs fs) ++ flat_map stored_names fs) -> In (n, d) (flat_map opt_defaults fs) ->
  unread_or d (lookup (new_attrs fs []) n).
Proof.
  intros N I. apply (prepare_default (FGroup fs)); [exact (nodup_app_r _ _ N)|exact I|].
  left. apply lookup_absent. intros H. apply (nodup_app_out _ _ _ N H). exact (opt_names (FGroup fs) n d I).
Qed.

(** *** Reading *)
Variable h : host.
Definition read_prints (m : marshal) : Prop := printable m -> forall c s v s', read h m c s = (Ok v, s') -> exists t, to_repr m v = Ok t.
Definition field_prints (f : field) : Prop := printable_field f -> NoDup (stored_names f) -> forall cls cctx c s a u s' a',
  (forall n d, In (n, d) (opt_defaults f) -> unread_or d (lookup a n)) ->
  read_field h cls cctx f c (s, a) = (Ok u, (s', a')) ->
  (forall n, ~ In n (stored_names f) -> lookup a' n = lookup a n)
  /\ forall x, (forall n, In n (stored_names f) -> lookup x n = lookup a' n) -> exists t, field_repr f x = Ok t.

Lemma all_fields fs : (fix all (fs : list field) : Prop := match fs with [] => True | f :: r => printable_field f /\ all r end) fs <-> Forall printable_field fs.
Proof. induction fs as [|f fs IH]; split; auto; [intros [A B]; constructor; tauto|intros F; inversion F; subst; tauto]. Qed.
Lemma all_marshals l : (fix all (l : list marshal) : Prop := match l with [] => True | m' :: r => printable m' /\ all r end) l <-> Forall printable l.
Proof. induction l as [|f fs IH]; split; auto; [intros [A B]; constructor; tauto|intros F; inversion F; subst; tauto]. Qed.

Lemma fields_print fs : Forall field_prints fs -> Forall printable_field fs -> NoDup (flat_map stored_names fs) -> forall cls cctx c s a u s' a',
  (forall n d, In (n, d) (flat_map opt_defaults fs) -> unread_or d (lookup a n)) ->
  read_fields h cls cctx fs c (s, a) = (Ok u, (s', a')) ->
  (forall n, ~ In n (flat_map stored_names fs) -> lookup a' n = lookup a n)
  /\ forall x, (forall n, In n (flat_map stored_names fs) -> lookup x n = lookup a' n) -> exists t, fields_repr fs x = Ok t.
Proof.
  induction 1 as [|f fs Hf _ IH]; intros P N cls cctx c s a u s' a' D E.
  - change (read_fields h cls cctx [] c (s, a)) with (@Ok unit tt, (s, a)) in E. assert (a' = a) by congruence. subst. cbn; eauto.
  - inversion P as [|? ? P1 P2]; subst. rewrite read_fields_cons in E. unfold sbind in E.
    destruct (read_field h cls cctx f c (s, a)) as [[u1|] [s1 a1]] eqn:E1; [|discriminate]. cbn [flat_map] in *.
    destruct (Hf P1 (nodup_app_l _ _ N) _ _ _ _ _ _ _ _ (fun n d I => D n d (in_or_app _ _ _ (or_introl I))) E1) as [O1 G1].
    assert (D' : forall n d, In (n, d) (flat_map opt_defaults fs) -> unread_or d (lookup a1 n)).
    { intros n d I. rewrite O1; [apply D, in_or_app; now right|]. intros K. apply (nodup_app_out _ _ _ N K). exact (opt_names (FGroup fs) n d I). }
    destruct (IH P2 (nodup_app_r _ _ N) _ _ _ _ _ _ _ _ D' E) as [O2 G2]. split.
    + intros n H. rewrite in_app_iff in H. rewrite O2 by tauto. apply O1. tauto.
    + intros x X. cbn [fields_repr]. destruct (G1 x) as (t1 & ->).
      * intros n I. rewrite X by (apply in_or_app; tauto). apply O2. exact (nodup_app_out _ _ _ N I).
      * destruct (G2 x) as (t2 & ->); [|cbn; eauto]. intros n I. apply X, in_or_app. tauto.
Qed.

Lemma loop_all {S A} (m : stM S A) (P : A -> Prop) : (forall s v s', m s = (Ok v, s') -> P v) -> forall n s l s', stM_loop n m s = (Ok l, s') -> Forall P l.
Proof.
  intros H. induction n as [|n IH]; intros s l s' E.
  - unfold stM_loop, sret in E. assert (l = []) by congruence. subst. constructor.
  - rewrite stM_loop_S in E. unfold sbind in E. destruct (m s) as [[x|] s1] eqn:E1; [|discriminate].
    destruct (stM_loop n m s1) as [[r|] s2] eqn:E2; [|discriminate]. unfold sret in E. assert (l = x :: r) by congruence. subst. constructor; eauto.
Qed.
Lemma sum_all rd (P : value -> Prop) : (forall s v s', rd s = (Ok v, s') -> P v) -> forall fuel total s l s', sum_loop fuel rd total s = (Ok l, s') -> Forall P l.
Proof.
  intros H. induction fuel as [|fuel IH]; intros total s l s' E; cbn [sum_loop] in E; destruct (total >? 0); try discriminate.
  - unfold sbind, slift in E. destruct (passert (total =? 0)); [|discriminate]. unfold sret in E. assert (l = []) by congruence. subst. constructor.
  - unfold sbind, sget in E. destruct (rd s) as [[x|] s1] eqn:E1; [|discriminate]. destruct (stell s); [|discriminate]. destruct (stell s1); [|discriminate].
    destruct (_ =? 0); [discriminate|]. destruct (sum_loop fuel rd _ s1) as [[r|] s2] eqn:E2; [|discriminate]. cbn in E; unfold sret, sraise in E.
    assert (l = x :: r) by congruence. subst. constructor; eauto.
  - unfold sbind, slift in E. destruct (passert (total =? 0)); [|discriminate]. unfold sret in E. assert (l = []) by congruence. subst. constructor.
Qed.

Lemma array_prints el v l : v = VList l -> Forall (fun x => exists t, to_repr el x = Ok t) l ->
  exists t, (let* l := py_iter v in let* texts := rmap_list (to_repr el) l in Ok ("[ " ++ join ", " texts ++ " ]")%string) = Ok t.
Proof. intros -> F. cbn [py_iter rbind]. destruct (rmap_ok _ _ F) as (ts & ->). cbn. eauto. Qed.

Lemma read_class m c s v s' cls : class_name m = Some cls -> read h m c s = (Ok v, s') -> exists a, v = VObj cls a.
Proof.
  destruct m; try discriminate. cbn [class_name]. intros K. rewrite read_struct. destruct (read_fields _ _ _ _ _ _) as [[u|] [s1 a]]; [|discriminate].
  intros E. assert (v = VObj cls0 a) by congruence. subst. exists a. congruence.
Qed.

Lemma sel_choice_default mapping d cls : ~ In (Some cls) (map (fun p => class_name (snd p)) mapping) -> sel_choice mapping d cls = d.
Proof.
  induction mapping as [|[k m] r IH]; cbn; auto. intros H. destruct m; try (apply IH; tauto).
  destruct (String.eqb_spec cls0 cls) as [->|]; [exfalso; apply H; now left|]. apply IH. tauto.
Qed.
Lemma class_choice_nth choices : NoDup (map class_name choices) -> forall k m cls, nth_error choices k = Some m -> class_name m = Some cls -> class_choice choices cls = Some m.
Proof.
  induction choices as [|x r IH]; intros N [|k] m cls E C; try discriminate; cbn in E; inversion N as [|? ? N1 N2]; subst.
  - assert (x = m) by congruence. subst. destruct m; try discriminate. cbn in C |- *. assert (cls0 = cls) by congruence. subst. now rewrite String.eqb_refl.
  - cbn. assert (K : class_name x <> Some cls).
    { intros K. apply N1. rewrite K, <- C. apply in_map. eapply nth_error_In; eauto. }
    destruct x; try (eapply IH; eauto). cbn in K. destruct (String.eqb_spec cls0 cls) as [->|]; [congruence|]. eapply IH; eauto.
Qed.

Theorem read_repr : (forall m, read_prints m) /\ (forall f, field_prints f).
Proof.
  apply marshal_field_ind; unfold read_prints; intros.
  - cbn [read] in H0. unfold sbind in H0. destruct (sread _ s) as [[p|] s2]; [|discriminate].
    destruct (zlen p <? _); [discriminate|]. destruct (struct_unpack_int h f p); [|discriminate].
    unfold sret in H0. assert (v = VInt a) by congruence. subst. cbn. eauto.
  - cbn [read] in H0. unfold sbind in H0. destruct (sread _ s) as [[p|] s2]; [|discriminate].
    destruct (zlen p <? _); [discriminate|]. destruct (struct_unpack_float h f p); [|discriminate].
    unfold sret in H0. assert (v = VFloat a) by congruence. subst. cbn. eauto.
  - apply PR.
  - apply PR.
  - apply PR.
  - apply PR.
  - apply PR.
  - cbn. eauto.
  - cbn [read] in H2. unfold sbind, slift in H2. destruct (read h sz c s) as [[len|] s1]; [|discriminate].
    destruct (as_int len); [|discriminate]. destruct (stM_loop _ _ s1) as [[l|] s2] eqn:L; [|discriminate]. cbn in H2; unfold sret, sraise in H2.
    cbn [Repr.to_repr]. apply (array_prints el v l); [congruence|]. eapply loop_all; eauto.
  - cbn [read] in H1. unfold sbind in H1. destruct (stM_loop _ _ s) as [[l|] s2] eqn:L; [|discriminate]. cbn in H1; unfold sret, sraise in H1.
    cbn [Repr.to_repr]. apply (array_prints el v l); [congruence|]. eapply loop_all; eauto.
  - cbn [read] in H2. unfold sbind, slift in H2. destruct (read h sz c s) as [[len|] s1]; [|discriminate].
    destruct (as_int len); [|discriminate]. destruct (sum_loop _ _ _ s1) as [[l|] s2] eqn:L; [|discriminate]. cbn in H2; unfold sret, sraise in H2.
    cbn [Repr.to_repr]. apply (array_prints el v l); [congruence|]. eapply sum_all; eauto.
  - apply PR.
  - cbn [printable] in H0. destruct H0 as [N P]. apply all_fields in P. rewrite read_struct in H1.
    destruct (read_fields h cls cctx fs c (s, new_attrs fs [])) as [[u|] [s1 a]] eqn:E; [|discriminate].
    assert (v = VObj cls a) by congruence. subst. rewrite repr_struct.
    destruct (fields_print fs H P (nodup_app_r _ _ N) _ _ _ _ _ _ _ _ (fun n d => new_default fs n d N) E) as [_ G].
    destruct (G a) as (t & ->); auto. cbn. eauto.
  - rewrite read_sel in H3. apply with_read_ahead_inv in H3 as (w & H3 & _). unfold sbind, set_read_ahead, slift in H3.
    destruct (read h key c _) as [[k|] s1]; [|discriminate]. destruct s1 as [? ?|b mo i]; [discriminate|].
    destruct (hashable k); [|discriminate]. destruct d as [m|]; [|discriminate]. cbn [opt_all] in H1.
    destruct (read h m c _) as [[r|] s2] eqn:R; [|discriminate]. destruct (is_read_ahead_empty s2) as [[b'|] s3]; [|discriminate].
    destruct (negb b'); [discriminate|]. cbn in H3; unfold sret, sraise in H3. assert (r = v) by congruence. subst r.
    cbn [printable] in H2. destruct H2 as (P & C & NI). destruct (class_name m) as [cls|] eqn:K; [|congruence].
    destruct (read_class _ _ _ _ _ _ K R) as (a & ->). rewrite repr_sel, sel_choice_default by exact NI. eauto.
  - rewrite read_funsel in H1. apply with_read_ahead_inv in H1 as (w & H1 & _). unfold sbind, set_read_ahead in H1.
    destruct (run_rprog (func c) _) as [[k|] s1]; [|discriminate]. destruct s1 as [? ?|b mo i]; [discriminate|].
    destruct (read_choice h choices k c _) as [[r|] s2] eqn:R; [|discriminate]. destruct (is_read_ahead_empty s2) as [[b'|] s3]; [|discriminate].
    destruct (negb b'); [discriminate|]. cbn in H1; unfold sret, sraise in H1. assert (r = v) by congruence. subst r.
    cbn [printable] in H0. destruct H0 as (N & NI & P). apply all_marshals in P. unfold read_choice in R.
    destruct (nth_error choices k) as [m|] eqn:Em; [|discriminate]. pose proof (nth_error_In _ _ Em) as Im.
    destruct (class_name m) as [cls|] eqn:K; [|exfalso; apply NI; rewrite <- K; now apply in_map].
    destruct (read_class _ _ _ _ _ _ K R) as (a & ->). rewrite repr_funsel, (class_choice_nth _ N k m cls Em K).
    rewrite Forall_forall in H, P. eapply H; eauto.
  - intros P _ cls cctx c s a u s' a' _ E. rewrite read_field_field in E. destruct (read h m _ s) as [[v|] s1] eqn:R; [|discriminate].
    assert (a' = set_attr a n v) by congruence. subst. cbn [stored_names]. split.
    + intros n' K. apply lookup_set_other. intros ->. apply K. now left.
    + intros x X. rewrite repr_named, (field_value_same n d x _ (X n (or_introl eq_refl))), field_value_set.
      destruct (H P _ _ _ _ R) as (t & ->). cbn. eauto.
  - intros P _ cls cctx c s a u s' a' _ E. rewrite read_field_anon in E. destruct (read h m _ s) as [[v|] s1] eqn:R; [|discriminate].
    assert (a' = a) by congruence. subst. split; auto. intros x _. rewrite repr_anon. now apply unread_repr.
  - intros P _ cls cctx c s a u s' a' _ E. rewrite read_field_const in E. destruct (read h m _ s) as [[v|] s1] eqn:R; [|discriminate].
    destruct (py_eq v k) eqn:K; [|discriminate]. assert (a' = a) by congruence. subst. split; auto. intros x _. rewrite repr_const.
    destruct (H P _ _ _ _ R) as (t & T). destruct (repr_equal _ _ _ _ K T) as (t' & ->). cbn. eauto.
  - intros [P U] _ cls cctx c s a u s' a' D E. rewrite read_field_opt in E. destruct (run_rprog _ s) as [[[]|] s1]; [| |discriminate].
    + destruct (read h m _ s1) as [[v|] s2] eqn:R; [|discriminate]. assert (a' = set_attr a n v) by congruence. subst. cbn [stored_names]. split.
      * intros n' K. apply lookup_set_other. intros ->. apply K. now left.
      * intros x X. rewrite repr_optional, (field_value_same n d x _ (X n (or_introl eq_refl))), field_value_set.
        destruct (H P _ _ _ _ R) as (t & ->). cbn. eauto.
    + assert (a' = a) by congruence. subst. split; auto. intros x X. rewrite repr_optional, (field_value_same n d x _ (X n (or_introl eq_refl))). unfold field_value.
      specialize (D n d (or_introl eq_refl)). destruct (unread_repr m d U) as (t & T).
      destruct D as [->| ->]; rewrite T; cbn; eauto.
  - intros P N cls cctx c s a u s' a' D E. rewrite read_group in E. cbn [printable_field] in P. apply all_fields in P.
    destruct (fields_print fs H P N _ _ _ _ _ _ _ _ D E) as [O G]. split; auto. intros x X. rewrite repr_group.
    destruct (G x X) as (t & ->). cbn. eauto.
  - intros P N cls cctx c s a u s' a' D E. rewrite read_field_bits in E.
    destruct (read_container_repr _ bs P N _ _ _ _ _ E) as [O G]. split; auto. intros x X. rewrite repr_bits. destruct (G x X) as (t & ->). cbn. eauto.
  - intros P N cls cctx c s a u s' a' D E. rewrite read_field_posbits in E.
    destruct (read_container_repr _ bs P N _ _ _ _ _ E) as [O G]. split; auto. intros x X. rewrite repr_posbits. destruct (G x X) as (t & ->). cbn. eauto.
Qed.
End Facts.

(** *** What is printed, and what is not *)
Section Shown.
Variables (percent_d percent_f : Z -> string) (py_repr : value -> res string).
Notation to_repr := (to_repr percent_d percent_f py_repr).
Notation field_repr := (field_repr percent_d percent_f py_repr).
Notation fields_repr := (fields_repr percent_d percent_f py_repr).

Lemma app_str_assoc (a b c : string) : ((a ++ b) ++ c = a ++ (b ++ c))%string.
Proof. induction a; cbn; congruence. Qed.
Lemma app_str_nil (a : string) : (a ++ "" = a)%string.
Proof. induction a; cbn; congruence. Qed.

Lemma join_in x l : In x l -> exists pre post, join ", " l = (pre ++ x ++ post)%string.
Proof.
  induction l as [|y l IH]; [easy|]. intros [->|I].
  - destruct l as [|z l]; [exists ""%string, ""%string; cbn; now rewrite app_str_nil|].
    exists ""%string, (", " ++ join ", " (z :: l))%string. reflexivity.
  - destruct (IH I) as (pre & post & E). destruct l as [|z l]; [easy|].
    exists (y ++ ", " ++ pre)%string, post.
    change (join ", " (y :: z :: l)) with (y ++ ", " ++ join ", " (z :: l))%string. rewrite E, !app_str_assoc. reflexivity.
Qed.

Lemma fields_repr_in fs a ts f : fields_repr fs a = Ok ts -> In f fs -> exists t, field_repr f a = Ok t /\ In t ts.
Proof.
  revert ts. induction fs as [|g fs IH]; intros ts E; [easy|]. cbn [ReprFacts.fields_repr] in E.
  destruct (field_repr g a) as [x|] eqn:Ex; [|discriminate]. cbn [rbind] in E.
  destruct (fields_repr fs a) as [xs|] eqn:Exs; [|discriminate]. cbn [rbind] in E. assert (ts = x :: xs) by congruence. subst.
  intros [->|I]; [exists x; split; auto; now left|]. destruct (IH xs eq_refl I) as (t & Et & It). exists t. split; auto. now right.
Qed.

Lemma struct_shows cls cctx fs a t n m d : to_repr (MStruct cls cctx fs) (VObj cls a) = Ok t -> In (FField n m d) fs ->
  exists tf pre post, to_repr m (field_value n d a) = Ok tf /\ t = (pre ++ n ++ "=" ++ tf ++ post)%string.
Proof.
  rewrite repr_struct. intros E I. destruct (fields_repr fs a) as [ts|] eqn:F; [|discriminate]. cbn [rbind] in E.
  destruct (fields_repr_in fs a ts _ F I) as (x & Ex & Ix). rewrite repr_named in Ex.
  destruct (to_repr m (field_value n d a)) as [tf|]; [|discriminate]. cbn [rbind] in Ex.
  destruct (join_in x ts Ix) as (pre & post & J). exists tf, (cls ++ "(" ++ pre)%string, (post ++ ")")%string. split; auto.
  rewrite J in E. assert (x = n ++ "=" ++ tf)%string by congruence. subst x.
  assert (T : t = (cls ++ "(" ++ (pre ++ (n ++ "=" ++ tf) ++ post) ++ ")")%string) by congruence. subst t. now rewrite !app_str_assoc.
Qed.

Lemma fields_repr_stop before f after a ts e : fields_repr before a = Ok ts -> field_repr f a = Err e ->
  fields_repr (before ++ f :: after) a = Err e.
Proof.
  revert ts. induction before as [|g before IH]; intros ts E1 E2; cbn [app ReprFacts.fields_repr] in *.
  - now rewrite E2.
  - destruct (field_repr g a) as [x|]; [|discriminate]. cbn [rbind] in *. destruct (fields_repr before a) as [xs|] eqn:B; [|discriminate].
    now rewrite (IH _ eq_refl E2).
Qed.
Lemma absent_stops cls cctx before n m pred d after a ts : fields_repr before a = Ok ts -> field_value n d a = VNone ->
  (exists f, m = MInt f) \/ (exists f, m = MFloat f) ->
  to_repr (MStruct cls cctx (before ++ FOpt n m pred d :: after)) (VObj cls a) = Err TypeError.
Proof.
  intros B V M. rewrite repr_struct, (fields_repr_stop _ _ _ _ _ TypeError B); auto.
  rewrite repr_optional, V. now destruct M as [[f ->]|[f ->]].
Qed.
End Shown.

(** A class whose only field is an optional number, read with the number left out. *)
Lemma absent_number_read pd pf pr h cls cctx n f pred c s :
  (forall o c', pred o c' = RRet (Ok false)) ->
  exists v, read h (MStruct cls cctx [FOpt n (MInt f) pred VNone]) c s = (Ok v, s)
            /\ to_repr pd pf pr (MStruct cls cctx [FOpt n (MInt f) pred VNone]) v = Err TypeError.
Proof.
  intros P. rewrite read_struct, read_fields_cons. unfold sbind. rewrite read_field_opt, P. cbn [run_rprog slift].
  eexists. split; [reflexivity|]. eapply (absent_stops pd pf pr cls cctx []); [reflexivity| |eauto]. cbn.
  unfold field_value. cbn. now rewrite String.eqb_refl.
Qed.

(** An object created without a value for its only field. *)
Lemma unset_prints pd pf pr cls cctx n m : to_repr pd pf pr (MStruct cls cctx [FField n m VNone]) (VObj cls (new_attrs [FField n m VNone] []))
  = let* s := to_repr pd pf pr m VNone in Ok (cls ++ "(" ++ n ++ "=" ++ s ++ ")")%string.
Proof.
  rewrite repr_struct. cbn [fields_repr]. rewrite repr_named.
  assert (F : field_value n VNone (new_attrs [FField n m VNone] []) = VNone) by (unfold field_value; cbn; now rewrite String.eqb_refl).
  rewrite F. destruct (to_repr pd pf pr m VNone); auto. cbn [rbind join]. now rewrite !app_str_assoc.
Qed.

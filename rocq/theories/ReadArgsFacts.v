(** Extra arguments of create_from_stream: lemmas for C105. *)
From Verif Require Import Base IntCodec BitStringIO Stream MinMax Marshal MarshalInd FieldSpec FieldFacts StructInitSpec StructInitFacts ReadArgs ReadArgsSpec.
From Coq Require Import ZArith List Bool String Lia.
Import ListNotations.
Open Scope Z_scope.

(** ** Programs that do the same *)
Lemma sbind_same {S A B} (m m' : stM S A) (k k' : A -> stM S B) s : m s = m' s -> (forall x t, k x t = k' x t) -> sbind m k s = sbind m' k' s.
Proof. intros E K. unfold sbind. rewrite E. destruct (m' s) as [[x|e] t]; [apply K|reflexivity]. Qed.
Lemma loop_same {S A} n (m m' : stM S A) : (forall s, m s = m' s) -> forall s, stM_loop n m s = stM_loop n m' s.
Proof.
  intros E. induction n as [|n IH]; intros s; [reflexivity|].
  change (stM_loop (Datatypes.S n) m) with (sbind m (fun x => sbind (stM_loop n m) (fun r => sret (x :: r)))).
  change (stM_loop (Datatypes.S n) m') with (sbind m' (fun x => sbind (stM_loop n m') (fun r => sret (x :: r)))).
  apply sbind_same; [apply E|]. intros x t. apply sbind_same; [apply IH|reflexivity].
Qed.
Lemma sum_same n (m m' : stM stream value) : (forall s, m s = m' s) -> forall total s, sum_loop n m total s = sum_loop n m' total s.
Proof.
  intros E. induction n as [|n IH]; intros total s; cbn [sum_loop]; [reflexivity|]. destruct (total >? 0); [|reflexivity].
  apply sbind_same; [reflexivity|]. intros s0 t0. apply sbind_same; [apply E|]. intros el t1. apply sbind_same; [reflexivity|]. intros s1 t2.
  destruct (stell s0), (stell s1); try reflexivity. destruct (_ =? 0); [reflexivity|]. apply sbind_same; [apply IH|reflexivity].
Qed.
Lemma ahead_same {A} (m m' : stM stream A) : (forall s, m s = m' s) -> forall s, with_read_ahead m s = with_read_ahead m' s.
Proof. intros E s. unfold with_read_ahead. now rewrite E. Qed.
Lemma on_stream_same {A} (m m' : stM stream A) st : (forall s, m s = m' s) -> on_stream m st = on_stream m' st.
Proof. intros E. unfold on_stream. now rewrite E. Qed.

(** ** Bit fields are read alike whatever their defaults *)
Lemma bits_size_default kw bs : bits_size (map (bit_default kw) bs) = bits_size bs.
Proof. unfold bits_size. rewrite map_map. do 2 f_equal. apply map_ext. intros [n m d|m|n m v]; reflexivity. Qed.
Lemma bits_default kw size bs st : read_bit_container size (map (bit_default kw) bs) st = read_bit_container size bs st.
Proof.
  unfold read_bit_container. apply sbind_same; [reflexivity|]. intros data t.
  assert (E : forall st, sforeach (map (bit_default kw) bs) read_bitfield st = sforeach bs read_bitfield st).
  { clear. induction bs as [|b bs IH]; intros st; [reflexivity|]. cbn [map sforeach]. apply sbind_same; [destruct b; reflexivity|]. intros x t. apply IH. }
  now rewrite E.
Qed.

(** ** Extra arguments are read like defaults *)
Section AsDefaults.
Variables (h : host) (args : list value) (kw : attrs).
Notation fwd := (field_with_default kw).

Lemma class_attrs_default : forall f, class_attrs_f (fwd f) = class_attrs_f f.
Proof.
  refine (proj2 (marshal_field_ind (fun _ => True) (fun f => class_attrs_f (fwd f) = class_attrs_f f) _ _ _ _ _ _ _ _ _ _ _ _ _ _ _ _ _ _ _ _ _ _)); auto; cbn [field_with_default class_attrs_f].
  - intros fs F. induction F as [|f fs E _ IH]; [reflexivity|]. cbn [map flat_map]. now rewrite E, IH.
  - intros bs. induction bs as [|b bs IH]; [reflexivity|]. cbn [map flat_map]. rewrite IH. now destruct b.
  - intros n bs. induction bs as [|b bs IH]; [reflexivity|]. cbn [map flat_map]. rewrite IH. now destruct b.
Qed.
Lemma class_attrs_defaults fs : class_attrs (map fwd fs) = class_attrs fs.
Proof. unfold class_attrs. induction fs as [|f fs IH]; [reflexivity|]. cbn [map flat_map]. now rewrite class_attrs_default, IH. Qed.

Lemma prepare_bits bs : forall a, NoDup (flat_map (fun b => match b with BField n _ _ => [n] | _ => [] end) bs) ->
  (forall n, In n (flat_map (fun b => match b with BField n _ _ => [n] | _ => [] end) bs) -> lookup a n = None) ->
  fold_left (fun a b => match b with BField n _ d => prepare_field kw a n d | _ => a end) bs a
  = fold_left (fun a b => match b with BField n _ d => prepare_field [] a n d | _ => a end) (map (bit_default kw) bs) a.
Proof.
  induction bs as [|b bs IH]; intros a N L; [reflexivity|]. destruct b as [n m d|m|n m v]; cbn [map fold_left flat_map bit_default app] in *; [|now apply IH|now apply IH].
  inversion N as [|? ? N1 N2]; subst.
  assert (E : prepare_field kw a n d = prepare_field [] a n (default_of kw n d)).
  { unfold prepare_field, default_of. cbn [lookup]. rewrite (L n (or_introl eq_refl)). destruct (lookup kw n); reflexivity. }
  rewrite <- E. apply IH; [exact N2|]. intros n' I. rewrite prepare_other by (intros ->; contradiction). apply L. now right.
Qed.
Lemma prepare_list (X : field -> Prop) fs :
  Forall (fun f => forall a, NoDup (stored_names f) -> (forall n, In n (stored_names f) -> lookup a n = None) -> prepare_instance kw a f = prepare_instance [] a (fwd f)) fs ->
  forall a, NoDup (flat_map stored_names fs) -> (forall n, In n (flat_map stored_names fs) -> lookup a n = None) ->
  fold_left (prepare_instance kw) fs a = fold_left (prepare_instance []) (map fwd fs) a.
Proof.
  induction 1 as [|f fs E _ IH]; intros a N L; [reflexivity|]. cbn [map fold_left flat_map] in *.
  assert (N1 : NoDup (stored_names f)) by (clear - N; induction (stored_names f) as [|x l IH]; [constructor|]; inversion N; subst; constructor; [rewrite in_app_iff in *; tauto|auto]).
  assert (N2 : NoDup (flat_map stored_names fs)) by (clear - N; induction (stored_names f) as [|x l IH]; [exact N|]; inversion N; auto).
  rewrite <- E; [|exact N1|intros n I; apply L, in_or_app; now left].
  apply IH; [exact N2|]. intros n I. rewrite prepare_instance_other; [apply L, in_or_app; now right|].
  intros J. clear - N I J. induction (stored_names f) as [|x l IH]; [destruct J|]. inversion N as [|? ? N1 N2]; subst. destruct J as [->|J]; [|now apply IH]. apply N1, in_or_app. now right.
Qed.
Lemma prepare_default : forall f a, NoDup (stored_names f) -> (forall n, In n (stored_names f) -> lookup a n = None) ->
  prepare_instance kw a f = prepare_instance [] a (fwd f).
Proof.
  assert (one : forall n d a, lookup a n = None -> prepare_field kw a n d = prepare_field [] a n (default_of kw n d)).
  { intros n d a L. unfold prepare_field, default_of. cbn [lookup]. rewrite L. destruct (lookup kw n); reflexivity. }
  refine (proj2 (marshal_field_ind (fun _ => True) (fun f => forall a, NoDup (stored_names f) -> (forall n, In n (stored_names f) -> lookup a n = None) ->
    prepare_instance kw a f = prepare_instance [] a (fwd f)) _ _ _ _ _ _ _ _ _ _ _ _ _ _ _ _ _ _ _ _ _ _)); auto; cbn [field_with_default prepare_instance stored_names].
  - intros n m d _ a _ L. apply one, L. now left.
  - intros n m pr d _ a _ L. apply one, L. now left.
  - intros fs F a N L. now apply (prepare_list (fun _ => True)).
  - intros bs a N L. now apply prepare_bits.
  - intros n bs a N L. now apply prepare_bits.
Qed.
Lemma new_attrs_default fs : NoDup (flat_map stored_names fs ++ map fst (class_attrs fs)) -> new_attrs fs kw = new_attrs (map fwd fs) [].
Proof.
  intros N. unfold new_attrs. rewrite class_attrs_defaults. apply (prepare_list (fun _ => True)).
  - apply Forall_forall. intros f _. apply prepare_default.
  - clear - N. induction (flat_map stored_names fs) as [|x l IH]; [constructor|]. inversion N; subst. constructor; [rewrite in_app_iff in *; tauto|auto].
  - intros n I. destruct (lookup (class_attrs fs) n) as [v|] eqn:E; [|reflexivity]. exfalso.
    assert (J : In n (map fst (class_attrs fs))).
    { clear - E. induction (class_attrs fs) as [|[k w] l IH]; [discriminate|]. cbn [lookup map fst] in *. destruct (String.eqb_spec k n); [now left|right; auto]. }
    clear - N I J. induction (flat_map stored_names fs) as [|x l IH]; [destruct I|]. inversion N as [|? ? N1 N2]; subst. destruct I as [->|I]; [|now apply IH]. apply N1, in_or_app. now right.
Qed.

Lemma distinct_fix fs : (fix go (fs : list field) : Prop := match fs with [] => True | f :: r => distinct_in f /\ go r end) fs <-> Forall distinct_in fs.
Proof. induction fs as [|f fs IH]; [split; constructor|]. rewrite IH. split; [intros [A B]; now constructor|intros A; inversion A; auto]. Qed.
Lemma plain_fix fs : (fix go (fs : list field) : Prop := match fs with [] => True | f :: r => no_numbers_in f /\ go r end) fs <-> Forall no_numbers_in fs.
Proof. induction fs as [|f fs IH]; [split; constructor|]. rewrite IH. split; [intros [A B]; now constructor|intros A; inversion A; auto]. Qed.
Lemma kw_fields_fix cls cctx c fs :
  Forall (fun f => distinct_in f -> no_numbers_in f -> forall c st, read_field_kw h args kw cls cctx f c st = read_field h cls cctx (fwd f) c st) fs ->
  Forall distinct_in fs -> Forall no_numbers_in fs -> forall st,
  (fix go (fs : list field) : stM rstate unit := match fs with [] => sret tt | f :: r => do read_field_kw h args kw cls cctx f c ;; go r end) fs st
  = read_fields h cls cctx (map fwd fs) c st.
Proof.
  induction 1 as [|f fs E _ IH]; intros D N st; [reflexivity|]. inversion D; inversion N; subst. cbn [map]. rewrite read_fields_cons.
  apply sbind_same; [now apply E|]. intros x t. now apply IH.
Qed.
Theorem read_as_defaults :
  (forall m, distinct_names m -> no_numbers m -> forall c s, read_kw h args kw m c s = read h (with_defaults kw m) c s)
  /\ (forall f, distinct_in f -> no_numbers_in f -> forall cls cctx c st, read_field_kw h args kw cls cctx f c st = read_field h cls cctx (fwd f) c st).
Proof.
  apply marshal_field_ind.
  all: try (intros; reflexivity).
  all: try (intros ? ? []; fail).
  - (* MVarArr *) intros sz el IS IE [D1 D2] [N1 N2] c s. cbn [read_kw with_defaults read]. apply sbind_same; [now apply IS|]. intros len t.
    apply sbind_same; [reflexivity|]. intros n t'. apply sbind_same; [|reflexivity]. apply loop_same. intros. now apply IE.
  - intros n el IE D N c s. cbn [read_kw with_defaults read]. apply sbind_same; [|reflexivity]. apply loop_same. intros. now apply IE.
  - intros sz el IS IE [D1 D2] N c s. cbn [read_kw with_defaults read]. apply sbind_same; [reflexivity|]. intros len t.
    apply sbind_same; [reflexivity|]. intros n t'. apply sbind_same; [|reflexivity]. apply sum_same. intros. now apply IE.
  - intros tbl m IE D N c s. cbn [read_kw with_defaults read]. apply sbind_same; [now apply IE|reflexivity].
  - intros cls cctx fs F [D1 D2] N c s. rewrite distinct_fix in D2. cbn [no_numbers] in N. rewrite plain_fix in N. cbn [with_defaults]. rewrite read_struct. cbn [read_kw].
    rewrite (kw_fields_fix cls cctx c fs); [|revert F; apply Forall_impl; intros f E D N' c' st; now apply E|exact D2|exact N].
    now rewrite new_attrs_default.
  - intros key mapping d IK IM ID (D1 & D2 & D3) [N1 N2] c s. cbn [read_kw with_defaults read]. apply ahead_same. clear s. intros s.
    apply sbind_same; [reflexivity|]. intros [] t. apply sbind_same; [reflexivity|]. intros k t'. apply sbind_same; [reflexivity|]. intros [] t2.
    apply sbind_same; [reflexivity|]. intros [] t3.
    change (sel_has_key mapping k) with false. change (sel_has_key (map (fun p => (fst p, with_defaults kw (snd p))) mapping) k) with false. cbv iota.
    destruct d as [d|]; [|reflexivity]. cbn [option_map]. apply sbind_same; [|reflexivity]. now apply ID.
  - intros choices func mm F D N c s. cbn [read_kw with_defaults read]. apply ahead_same. clear s. intros s.
    apply sbind_same; [reflexivity|]. intros [] t. apply sbind_same; [reflexivity|]. intros k t'. apply sbind_same; [reflexivity|]. intros [] t2.
    apply sbind_same; [|reflexivity]. cbn [distinct_names no_numbers] in D, N. clear - F D N. revert k. induction F as [|m l E _ IH]; intros k; [reflexivity|]. cbn [map].
    destruct D as [D1 D2], N as [N1 N2]. destruct k as [|k]; [now apply E|now apply IH].
  - intros n m d IM D N cls cctx c st. cbn [read_field_kw field_with_default read_field]. apply sbind_same; [|reflexivity]. apply on_stream_same. intros. now apply IM.
  - intros m IM D N cls cctx c st. cbn [read_field_kw field_with_default read_field]. apply sbind_same; [|reflexivity]. apply on_stream_same. intros. now apply IM.
  - intros n m k IM D N cls cctx c st. cbn [read_field_kw field_with_default read_field]. apply sbind_same; [|reflexivity]. apply on_stream_same. intros. now apply IM.
  - intros n m pr d IM D N cls cctx c st. cbn [read_field_kw field_with_default read_field]. apply sbind_same; [reflexivity|]. intros [] t; [|reflexivity].
    apply sbind_same; [|reflexivity]. apply on_stream_same. intros. now apply IM.
  - intros fs F D N cls cctx c st. cbn [distinct_in no_numbers_in] in D, N. rewrite distinct_fix in D. rewrite plain_fix in N. cbn [field_with_default]. rewrite read_group.
    rewrite <- (kw_fields_fix cls cctx c fs); [reflexivity| |exact D|exact N]. revert F; apply Forall_impl; intros f E D' N' c' st'; now apply E.
  - intros bs D N cls cctx c st. cbn [read_field_kw field_with_default read_field]. now rewrite bits_size_default, bits_default.
  - intros n bs D N cls cctx c st. cbn [read_field_kw field_with_default read_field]. now rewrite bits_default.
Qed.
End AsDefaults.

(** ** Definitions without conditions do not look at the context *)
Lemma unc_fix fs : (fix go (fs : list field) : Prop := match fs with [] => True | f :: r => unconditional_field f /\ go r end) fs <-> Forall unconditional_field fs.
Proof. induction fs as [|f fs IH]; [split; constructor|]. rewrite IH. split; [intros [A B]; now constructor|intros A; inversion A; auto]. Qed.
Lemma fields_context h cls cctx c c' fs : Forall (fun f => unconditional_field f -> forall cls cctx c c' st, read_field h cls cctx f c st = read_field h cls cctx f c' st) fs ->
  Forall unconditional_field fs -> forall st, read_fields h cls cctx fs c st = read_fields h cls cctx fs c' st.
Proof. induction 1 as [|f fs E _ IH]; intros D st; [reflexivity|]. inversion D; subst. rewrite !read_fields_cons. apply sbind_same; [now apply E|]. intros x t. now apply IH. Qed.
Theorem no_context h :
  (forall m, unconditional m -> forall c c' s, read h m c s = read h m c' s)
  /\ (forall f, unconditional_field f -> forall cls cctx c c' st, read_field h cls cctx f c st = read_field h cls cctx f c' st).
Proof.
  apply marshal_field_ind.
  all: try (intros; reflexivity).
  all: try (intros; cbn [unconditional unconditional_field] in *; contradiction).
  - intros sz p d IS D c c' s. cbn [read]. apply sbind_same; [now apply IS|reflexivity].
  - intros sz el IS IE [D1 D2] c c' s. cbn [read]. apply sbind_same; [now apply IS|]. intros len t.
    apply sbind_same; [reflexivity|]. intros n t'. apply sbind_same; [|reflexivity]. apply loop_same. intros. now apply IE.
  - intros n el IE D c c' s. cbn [read]. apply sbind_same; [|reflexivity]. apply loop_same. intros. now apply IE.
  - intros sz el IS IE [D1 D2] c c' s. cbn [read]. apply sbind_same; [now apply IS|]. intros len t.
    apply sbind_same; [reflexivity|]. intros n t'. apply sbind_same; [|reflexivity]. apply sum_same. intros. now apply IE.
  - intros tbl m IE D c c' s. cbn [read]. apply sbind_same; [now apply IE|reflexivity].
  - intros cls cctx fs F D c c' s. cbn [unconditional] in D. rewrite unc_fix in D. rewrite !read_struct. now rewrite (fields_context h cls cctx c c' fs F D).
  - intros key mapping d IK IM ID (D1 & D2 & D3) c c' s. cbn [read]. apply ahead_same. clear s. intros s.
    apply sbind_same; [reflexivity|]. intros [] t. apply sbind_same; [now apply IK|]. intros k t'. apply sbind_same; [reflexivity|]. intros [] t2.
    apply sbind_same; [reflexivity|]. intros [] t3. change (sel_has_key mapping k) with false. cbv iota.
    destruct d as [d|]; [|reflexivity]. apply sbind_same; [|reflexivity]. now apply ID.
  - intros n m d IM D cls cctx c c' st. cbn [read_field]. apply sbind_same; [|reflexivity]. apply on_stream_same. intros. now apply IM.
  - intros m IM D cls cctx c c' st. cbn [read_field]. apply sbind_same; [|reflexivity]. apply on_stream_same. intros. now apply IM.
  - intros n m k IM D cls cctx c c' st. cbn [read_field]. apply sbind_same; [|reflexivity]. apply on_stream_same. intros. now apply IM.
  - intros fs F D cls cctx c c' st. cbn [unconditional_field] in D. rewrite unc_fix in D. rewrite !read_group. now apply fields_context.
Qed.

(** ** Attributes that agree except under names still to be read *)
Definition keyed (D : list name) (a b : attrs) : Prop :=
  map fst a = map fst b /\ NoDup (map fst a) /\ (forall n, ~ In n D -> lookup a n = lookup b n).
Lemma keys_eq (a : attrs) : forall b : attrs, NoDup (map fst a) -> map fst a = map fst b -> (forall n, lookup a n = lookup b n) -> a = b.
Proof.
  induction a as [|[n v] a IH]; intros [|[m w] b] Hn Hk Hl; cbn [map fst] in *; try discriminate; [reflexivity|].
  injection Hk as <- Hk. inversion Hn as [|? ? N1 N2]; subst. pose proof (Hl n) as E. cbn [lookup] in E.
  rewrite String.eqb_refl in E. injection E as <-. f_equal. apply (IH b N2 Hk). intros m. specialize (Hl m). cbn [lookup] in Hl.
  destruct (String.eqb_spec n m) as [E|]; [|exact Hl]. subst m.
  assert (L : forall l : attrs, ~ In n (map fst l) -> lookup l n = None).
  { induction l as [|[k x] l IL]; [reflexivity|]. cbn [map fst In lookup]. intros N. destruct (String.eqb_spec k n); [exfalso; apply N; now left|apply IL; tauto]. }
  rewrite !L; congruence.
Qed.
Lemma set_keys_alike (a : attrs) n v : forall b w, map fst a = map fst b -> map fst (set_attr a n v) = map fst (set_attr b n w).
Proof.
  induction a as [|[k x] a IH]; intros [|[k' y] b] w E; cbn [map fst] in E; try discriminate; [reflexivity|]. injection E as <- E. cbn [set_attr].
  destruct (String.eqb_spec k n); cbn [map fst]; [now rewrite E|f_equal; now apply IH].
Qed.
Lemma set_keys_known (a : attrs) n v w : lookup a n = Some w -> map fst (set_attr a n v) = map fst a.
Proof. induction a as [|[k x] a IH]; [discriminate|]. cbn [lookup set_attr]. destruct (String.eqb_spec k n); intros E; cbn [map fst]; [reflexivity|]. now rewrite IH. Qed.
Lemma set_in (a : attrs) n v x : In x (map fst (set_attr a n v)) -> x = n \/ In x (map fst a).
Proof. induction a as [|[k y] a IH]; cbn [set_attr map fst In]; [intuition|]. destruct (String.eqb_spec k n); cbn [map fst In]; intuition. Qed.
Lemma set_nodup (a : attrs) n v : NoDup (map fst a) -> NoDup (map fst (set_attr a n v)).
Proof.
  induction a as [|[k y] a IH]; intros N; [repeat constructor; intros []|]. cbn [set_attr]. destruct (String.eqb_spec k n); [exact N|]. cbn [map fst] in *. inversion N; subst.
  constructor; [|auto]. intros I. apply set_in in I. destruct I; [congruence|contradiction].
Qed.
Lemma lookup_set_any (a : attrs) n v m : lookup (set_attr a n v) m = if String.eqb n m then Some v else lookup a m.
Proof. destruct (String.eqb_spec n m) as [<-|N]; [apply lookup_set_same|now apply lookup_set_other]. Qed.
Lemma keyed_set D n a b v : keyed (n :: D) a b -> keyed D (set_attr a n v) (set_attr b n v).
Proof.
  intros (K & N & L). split; [now apply set_keys_alike|]. split; [now apply set_nodup|]. intros m M. rewrite !lookup_set_any.
  destruct (String.eqb_spec n m); [reflexivity|]. apply L. intros [|]; auto.
Qed.
Lemma keyed_known (a b : attrs) n : map fst a = map fst b -> lookup a n = None -> lookup b n = None.
Proof.
  revert b. induction a as [|[k x] a IH]; intros [|[k' y] b] E; cbn [map fst] in E; try discriminate; [auto|]. injection E as <- E. cbn [lookup]. destruct (String.eqb k n); [discriminate|auto].
Qed.
(** the new object: attributes prepared with and without the extra arguments *)
Lemma keyed_prepare kw D a b n d : keyed D a b -> In n D -> keyed D (prepare_field kw a n d) (prepare_field [] b n d).
Proof.
  intros (K & N & L) I. unfold prepare_field. cbn [lookup].
  assert (G : forall v, keyed D (set_attr a n v) (match lookup b n with Some _ => b | None => set_attr b n d end)).
  { intros v. destruct (lookup b n) as [w|] eqn:E.
    - destruct (lookup a n) as [w'|] eqn:E'; [|rewrite (keyed_known a b n K E') in E; discriminate].
      split; [now rewrite (set_keys_known a n v w' E')|]. split; [now apply set_nodup|]. intros m M. rewrite lookup_set_any. destruct (String.eqb_spec n m) as [<-|]; [contradiction|now apply L].
    - split; [now apply set_keys_alike|]. split; [now apply set_nodup|]. intros m M. rewrite !lookup_set_any. destruct (String.eqb_spec n m); [congruence|now apply L]. }
  destruct (lookup kw n) as [v|]; [apply G|]. destruct (lookup a n) as [w|] eqn:E; [|apply G].
  destruct (lookup b n) eqn:E2; [now split|]. rewrite (keyed_known b a n (eq_sym K) E2) in E. discriminate.
Qed.
Lemma keyed_prepare_bits kw D bs : (forall n, In n (flat_map (fun b => match b with BField n _ _ => [n] | _ => [] end) bs) -> In n D) -> forall a b, keyed D a b ->
  keyed D (fold_left (fun a b => match b with BField n _ d => prepare_field kw a n d | _ => a end) bs a) (fold_left (fun a b => match b with BField n _ d => prepare_field [] a n d | _ => a end) bs b).
Proof.
  induction bs as [|x bs IH]; intros I a b K; [exact K|]. cbn [fold_left]. destruct x as [n m d|m|n m v]; cbn [flat_map app] in I; try (apply IH; [exact I|exact K]).
  apply IH; [intros k J; apply I; now right|]. apply keyed_prepare; [exact K|]. apply I. now left.
Qed.
Lemma keyed_instance kw D : forall f, incl (stored_names f) D -> forall a b, keyed D a b -> keyed D (prepare_instance kw a f) (prepare_instance [] b f).
Proof.
  refine (proj2 (marshal_field_ind (fun _ => True) (fun f => incl (stored_names f) D -> forall a b, keyed D a b -> keyed D (prepare_instance kw a f) (prepare_instance [] b f))
    _ _ _ _ _ _ _ _ _ _ _ _ _ _ _ _ _ _ _ _ _ _)); auto; cbn [prepare_instance stored_names].
  - intros n m d _ I a b K. apply keyed_prepare; [exact K|]. apply I. now left.
  - intros n m pr d _ I a b K. apply keyed_prepare; [exact K|]. apply I. now left.
  - intros fs F. induction F as [|f fs E _ IH]; intros I a b K; [exact K|]. cbn [fold_left flat_map] in *. apply IH; [intros n J; apply I, in_or_app; now right|].
    apply E; [intros n J; apply I, in_or_app; now left|exact K].
  - intros bs I a b K. now apply keyed_prepare_bits.
  - intros n bs I a b K. now apply keyed_prepare_bits.
Qed.
Lemma keyed_new kw fs : NoDup (map fst (class_attrs fs)) -> keyed (flat_map stored_names fs) (new_attrs fs kw) (new_attrs fs []).
Proof.
  intros N. unfold new_attrs.
  assert (G : forall l D, incl (flat_map stored_names l) D -> forall a b, keyed D a b -> keyed D (fold_left (prepare_instance kw) l a) (fold_left (prepare_instance []) l b)).
  { induction l as [|f l IH]; intros D I a b K; [exact K|]. cbn [fold_left flat_map] in *. apply IH; [intros n J; apply I, in_or_app; now right|].
    apply keyed_instance; [intros n J; apply I, in_or_app; now left|exact K]. }
  apply G; [apply incl_refl|]. split; [reflexivity|]. split; [exact N|reflexivity].
Qed.

(** ** They are overwritten by what is read *)
(** two runs that end alike: same outcome, same stream, attributes agreeing outside [D] if they succeed *)
Definition alike (D : list name) (x y : res unit * rstate) : Prop :=
  fst x = fst y /\ fst (snd x) = fst (snd y) /\ (fst x = Ok tt -> keyed D (snd (snd x)) (snd (snd y))).
Lemma alike_set D n (m m' : stM stream value) s a b : (forall s, m s = m' s) -> keyed (n :: D) a b ->
  alike D ((v <- on_stream m ;; upd_attrs (fun a => set_attr a n v)) (s, a)) ((v <- on_stream m' ;; upd_attrs (fun a => set_attr a n v)) (s, b)).
Proof.
  intros E K. unfold sbind, on_stream, upd_attrs. cbn [fst snd]. rewrite E. destruct (m' s) as [[v|e] t]; cbn [fst snd].
  - split; [reflexivity|]. split; [reflexivity|]. intros _. now apply keyed_set.
  - split; [reflexivity|]. split; [reflexivity|]. discriminate.
Qed.
Lemma alike_drop D (m m' : stM stream value) (k : value -> stM rstate unit) s a b : (forall s, m s = m' s) -> keyed D a b -> (forall v, k v = sret tt \/ exists e, k v = sraise e) ->
  alike D ((v <- on_stream m ;; k v) (s, a)) ((v <- on_stream m' ;; k v) (s, b)).
Proof.
  intros E K G. unfold sbind, on_stream. cbn [fst snd]. rewrite E. destruct (m' s) as [[v|e] t]; cbn [fst snd].
  - destruct (G v) as [-> | [e ->]]; (split; [reflexivity|]; split; [reflexivity|]); [intros _; exact K|discriminate].
  - split; [reflexivity|]. split; [reflexivity|]. discriminate.
Qed.
Lemma alike_bits D bs : forall b0 a b, keyed (flat_map (fun b => match b with BField n _ _ => [n] | _ => [] end) bs ++ D) a b ->
  let x := sforeach bs read_bitfield (b0, a) in let y := sforeach bs read_bitfield (b0, b) in
  fst x = fst y /\ (fst x = Ok tt -> keyed D (snd (snd x)) (snd (snd y))).
Proof.
  induction bs as [|f bs IH]; intros b0 a b K; [split; [reflexivity|intros _; exact K]|]. cbn [sforeach]. cbv zeta. set (k0 := sforeach bs read_bitfield) in *. unfold sbind, read_bitfield. cbn [fst snd].
  destruct (bm_read (bf_marshal f) b0) as [[v|e] b1]; [|split; [reflexivity|discriminate]].
  destruct f as [n m d|m|n m k]; cbn [flat_map app] in K.
  - apply IH. apply keyed_set. exact K.
  - apply IH. exact K.
  - destruct (py_eq v k); [apply IH; exact K|split; [reflexivity|discriminate]].
Qed.
Lemma alike_container D size bs s a b : keyed (flat_map (fun b => match b with BField n _ _ => [n] | _ => [] end) bs ++ D) a b ->
  alike D (read_bit_container size bs (s, a)) (read_bit_container size bs (s, b)).
Proof.
  intros K. unfold read_bit_container, sbind, on_stream. cbn [fst snd]. destruct (sread size s) as [[data|e] t]; cbn [fst snd]; [|split; [reflexivity|]; split; [reflexivity|discriminate]].
  pose proof (alike_bits D bs (bs_new_bytes data) a b K) as G. cbv zeta in G.
  destruct (sforeach bs read_bitfield (bs_new_bytes data, a)) as [r [b1 a1]], (sforeach bs read_bitfield (bs_new_bytes data, b)) as [r' [b1' a1']].
  cbn [fst snd] in *. destruct G as [-> G]. split; [reflexivity|]. split; [reflexivity|exact G].
Qed.
Lemma alike_fields h args kw cls cctx c c' fs :
  Forall (fun f => unconditional_field f -> distinct_in f -> no_numbers_in f -> forall cls cctx c c' D s a b, keyed (stored_names f ++ D) a b ->
    alike D (read_field_kw h args kw cls cctx f c (s, a)) (read_field h cls cctx f c' (s, b))) fs ->
  Forall unconditional_field fs -> Forall distinct_in fs -> Forall no_numbers_in fs -> forall D s a b, keyed (flat_map stored_names fs ++ D) a b ->
  alike D ((fix go (fs : list field) : stM rstate unit := match fs with [] => sret tt | f :: r => do read_field_kw h args kw cls cctx f c ;; go r end) fs (s, a))
    (read_fields h cls cctx fs c' (s, b)).
Proof.
  induction 1 as [|f fs E _ IH]; intros U D' N' D s a b K; [split; [reflexivity|]; split; [reflexivity|intros _; exact K]|].
  inversion U; inversion D'; inversion N'; subst. rewrite read_fields_cons. cbn [flat_map] in K. rewrite <- app_assoc in K.
  specialize (E ltac:(assumption) ltac:(assumption) ltac:(assumption) cls cctx c c' _ s a b K). unfold sbind.
  destruct (read_field_kw h args kw cls cctx f c (s, a)) as [r [s1 a1]], (read_field h cls cctx f c' (s, b)) as [r' [s1' b1]].
  destruct E as (E1 & E2 & E3). cbn [fst snd] in *. subst r' s1'. destruct r as [[]|e]; [|split; [reflexivity|]; split; [reflexivity|discriminate]].
  apply IH; auto.
Qed.
Theorem read_ignores h args kw :
  (forall m, unconditional m -> distinct_names m -> no_numbers m -> forall c c' s, read_kw h args kw m c s = read h m c' s)
  /\ (forall f, unconditional_field f -> distinct_in f -> no_numbers_in f -> forall cls cctx c c' D s a b, keyed (stored_names f ++ D) a b ->
       alike D (read_field_kw h args kw cls cctx f c (s, a)) (read_field h cls cctx f c' (s, b))).
Proof.
  apply marshal_field_ind.
  all: try (intros; reflexivity).
  all: try (intros; cbn [unconditional unconditional_field no_numbers] in *; contradiction).
  - intros sz p d IS U D N c c' s. cbn [read_kw read]. apply sbind_same; [now apply (proj1 (no_context h))|reflexivity].
  - intros sz el IS IE [U1 U2] [D1 D2] [N1 N2] c c' s. cbn [read_kw read]. apply sbind_same; [now apply IS|]. intros len t.
    apply sbind_same; [reflexivity|]. intros n t'. apply sbind_same; [|reflexivity]. apply loop_same. intros. now apply IE.
  - intros n el IE U D N c c' s. cbn [read_kw read]. apply sbind_same; [|reflexivity]. apply loop_same. intros. now apply IE.
  - intros sz el IS IE [U1 U2] [D1 D2] N c c' s. cbn [read_kw read]. apply sbind_same; [now apply (proj1 (no_context h))|]. intros len t.
    apply sbind_same; [reflexivity|]. intros n t'. apply sbind_same; [|reflexivity]. apply sum_same. intros. now apply IE.
  - intros tbl m IE U D N c c' s. cbn [read_kw read]. apply sbind_same; [now apply IE|reflexivity].
  - intros cls cctx fs F U [D1 D2] N c c' s. cbn [unconditional no_numbers] in U, N. rewrite unc_fix in U. rewrite plain_fix in N. rewrite distinct_fix in D2. rewrite read_struct. cbn [read_kw].
    assert (K : keyed (flat_map stored_names fs ++ []) (new_attrs fs kw) (new_attrs fs [])).
    { rewrite app_nil_r. apply keyed_new. clear - D1. induction (flat_map stored_names fs) as [|x l IH]; [exact D1|]. inversion D1; auto. }
    pose proof (alike_fields h args kw cls cctx c c' fs F U D2 N [] s _ _ K) as G.
    set (x := (fix go (fs : list field) : stM rstate unit := match fs with [] => sret tt | f :: r => do read_field_kw h args kw cls cctx f c ;; go r end) fs (s, new_attrs fs kw)) in *.
    change ((match x with (Ok _, (s', a)) => (Ok (VObj cls a), s') | (Err e, (s', _)) => (Err e, s') end) = match read_fields h cls cctx fs c' (s, new_attrs fs []) with
      | (Ok _, (s', a)) => (Ok (VObj cls a), s') | (Err e, (s', _)) => (Err e, s') end).
    destruct x as [r [s1 a1]], (read_fields h cls cctx fs c' (s, new_attrs fs [])) as [r' [s1' b1]]. destruct G as (E1 & E2 & E3). cbn [fst snd] in *. subst r' s1'.
    destruct r as [[]|e]; [|reflexivity]. destruct (E3 eq_refl) as (K1 & K2 & K3). do 3 f_equal. apply keys_eq; [exact K2|exact K1|]. intros n. apply K3. intros [].
  - intros key mapping d IK IM ID (U1 & U2 & U3) (D1 & D2 & D3) [N1 N2] c c' s. cbn [read_kw read]. apply ahead_same. clear s. intros s.
    apply sbind_same; [reflexivity|]. intros [] t. apply sbind_same; [now apply (proj1 (no_context h))|]. intros k t'. apply sbind_same; [reflexivity|]. intros [] t2.
    apply sbind_same; [reflexivity|]. intros [] t3. change (sel_has_key mapping k) with false. cbv iota.
    destruct d as [d|]; [|reflexivity]. apply sbind_same; [|reflexivity]. now apply ID.
  - intros n m d IM U D' N cls cctx c c' D s a b K. cbn [read_field_kw read_field]. apply alike_set; [|exact K]. intros. now apply IM.
  - intros m IM U D' N cls cctx c c' D s a b K. cbn [read_field_kw read_field]. apply (alike_drop D _ _ (fun _ => sret tt)); [intros; now apply IM|exact K|now left].
  - intros n m k IM U D' N cls cctx c c' D s a b K. cbn [read_field_kw read_field]. apply alike_drop; [intros; now apply IM|exact K|].
    intros v. destruct (py_eq v k); [now left|right; eauto].
  - intros fs F U D' N cls cctx c c' D s a b K. cbn [unconditional_field distinct_in no_numbers_in] in U, D', N. rewrite unc_fix in U. rewrite distinct_fix in D'. rewrite plain_fix in N. rewrite read_group.
    apply (alike_fields h args kw cls cctx c c' fs F U D' N D s a b K).
  - intros bs U D' N cls cctx c c' D s a b K. apply alike_container. exact K.
  - intros n bs U D' N cls cctx c c' D s a b K. apply alike_container. exact K.
Qed.

(** ** Names that no field has *)
Lemma same_defaults kw :
  (forall m, (forall n, In n (all_names m) -> lookup kw n = None) -> with_defaults kw m = m)
  /\ (forall f, (forall n, In n (names_in f) -> lookup kw n = None) -> field_with_default kw f = f).
Proof.
  assert (map_same : forall {A} (g : A -> A) l, Forall (fun x => g x = x) l -> map g l = l).
  { intros A g l F. induction F as [|x l E _ IH]; [reflexivity|]. cbn [map]. now rewrite E, IH. }
  assert (D : forall n d, lookup kw n = None -> default_of kw n d = d) by (intros n d E; unfold default_of; now rewrite E).
  assert (B : forall bs, (forall n, In n (flat_map (fun b => match b with BField n _ _ => [n] | _ => [] end) bs) -> lookup kw n = None) -> map (bit_default kw) bs = bs).
  { induction bs as [|b bs IH]; intros N; [reflexivity|]. cbn [map flat_map] in *. rewrite IH by (intros; apply N, in_or_app; now right). f_equal.
    destruct b as [n m d|m|n m v]; [|reflexivity|reflexivity]. cbn [bit_default]. rewrite D; [reflexivity|]. apply N. now left. }
  apply marshal_field_ind; cbn [all_names names_in with_defaults field_with_default]; intros; try reflexivity.
  - rewrite H, H0; auto; intros; apply H1, in_or_app; tauto.
  - rewrite H; auto.
  - rewrite H0; auto.
  - rewrite H; auto.
  - f_equal. apply map_same. apply Forall_forall. intros f I. rewrite Forall_forall in H. apply H; [exact I|]. intros n J. apply H0, in_flat_map. eauto.
  - f_equal.
    + apply map_same. apply Forall_forall. intros [k m] I. rewrite Forall_forall in H0. cbn [fst snd]. f_equal. apply (H0 _ I). intros n J. apply H2, in_or_app. left. apply in_flat_map. exists (k, m). auto.
    + destruct d as [d|]; [|reflexivity]. cbn [option_map]. f_equal. apply H1. intros n J. apply H2, in_or_app. now right.
  - f_equal. apply map_same. apply Forall_forall. intros m I. rewrite Forall_forall in H. apply H; [exact I|]. intros n J. apply H0, in_flat_map. eauto.
  - rewrite H, D; auto; [apply H0; now left|intros; apply H0; now right].
  - rewrite H; auto.
  - rewrite H; auto.
  - rewrite H, D; auto; [apply H0; now left|intros; apply H0; now right].
  - f_equal. apply map_same. apply Forall_forall. intros f I. rewrite Forall_forall in H. apply H; [exact I|]. intros n J. apply H0, in_flat_map. eauto.
  - now rewrite B.
  - now rewrite B.
Qed.
Theorem other_names h args kw m : distinct_names m -> no_numbers m -> (forall n, In n (all_names m) -> lookup kw n = None) -> forall c s, read_kw h args kw m c s = read h m c s.
Proof. intros D Q N c s. rewrite (proj1 (read_as_defaults h args kw) m D Q). now rewrite (proj1 (same_defaults kw) m N). Qed.

(** ** Optional fields that are left out *)
Lemma names_default kw : forall f, stored_names (field_with_default kw f) = stored_names f.
Proof.
  refine (proj2 (marshal_field_ind (fun _ => True) (fun f => stored_names (field_with_default kw f) = stored_names f) _ _ _ _ _ _ _ _ _ _ _ _ _ _ _ _ _ _ _ _ _ _)); auto; cbn [field_with_default stored_names].
  - intros fs F. induction F as [|f fs E _ IH]; [reflexivity|]. cbn [map flat_map]. now rewrite E, IH.
  - intros bs. induction bs as [|b bs IH]; [reflexivity|]. cbn [map flat_map]. rewrite IH. now destruct b.
  - intros n bs. induction bs as [|b bs IH]; [reflexivity|]. cbn [map flat_map]. rewrite IH. now destruct b.
Qed.
Lemma names_defaults kw fs : flat_map stored_names (map (field_with_default kw) fs) = flat_map stored_names fs.
Proof. induction fs as [|f fs IH]; [reflexivity|]. cbn [map flat_map]. now rewrite names_default, IH. Qed.
Lemma read_all_own h n fs cls cctx c : ~ In n (flat_map stored_names fs) -> forall s a r s' a', read_fields h cls cctx fs c (s, a) = (r, (s', a')) -> lookup a' n = lookup a n.
Proof. intros N. intros. eapply (read_fields_other h fs); [apply Forall_forall; intros f _; apply read_own|exact N|eassumption]. Qed.
Lemma left_out_fields h cls cctx c n m pr d fs1 fs2 : (forall o c s, run_rprog (pr o c) s = (Ok false, s)) -> ~ In n (flat_map stored_names (fs1 ++ fs2)) ->
  forall s a s' a', read_fields h cls cctx (fs1 ++ FOpt n m pr d :: fs2) c (s, a) = (Ok tt, (s', a')) -> lookup a' n = lookup a n.
Proof.
  intros P. induction fs1 as [|f fs1 IH]; intros N s a s' a' E; cbn [app flat_map] in *.
  - rewrite read_fields_cons in E. unfold sbind in E. rewrite read_field_opt, P in E. eapply read_all_own; eauto.
  - rewrite read_fields_cons in E. unfold sbind in E. rewrite in_app_iff in N. destruct (read_field h cls cctx f c (s, a)) as [[[]|e] [s1 a1]] eqn:E1; [|discriminate].
    rewrite (IH ltac:(tauto) _ _ _ _ E). eapply (read_own h f n); [tauto|exact E1].
Qed.
Theorem left_out h args kw cls cctx fs n m pr d : distinct_names (MStruct cls cctx fs) -> no_numbers (MStruct cls cctx fs) -> In (FOpt n m pr d) fs -> (forall o c s, run_rprog (pr o c) s = (Ok false, s)) ->
  forall c s v s', read_kw h args kw (MStruct cls cctx fs) c s = (Ok v, s') -> exists a, v = VObj cls a /\ lookup a n = Some (default_of kw n d).
Proof.
  intros D Q I P c s v s' E. rewrite (proj1 (read_as_defaults h args kw) _ D Q) in E. destruct D as [N _]. cbn [with_defaults] in E. rewrite read_struct in E.
  destruct (read_fields h cls cctx (map (field_with_default kw) fs) c _) as [[[]|e] [s1 a]] eqn:R; [|discriminate]. injection E as <- <-. exists a. split; [reflexivity|].
  assert (N1 : NoDup (flat_map stored_names fs)) by (clear - N; induction (flat_map stored_names fs) as [|x l IH]; [constructor|]; inversion N; subst; constructor; [rewrite in_app_iff in *; tauto|auto]).
  assert (J : In n (flat_map stored_names fs)) by (apply in_flat_map; eexists; split; [exact I|now left]).
  apply in_split in I as (fs1 & fs2 & ->). assert (R' := R). rewrite map_app in R at 1. cbn [map field_with_default] in R.
  assert (L : ~ In n (flat_map stored_names (map (field_with_default kw) fs1 ++ map (field_with_default kw) fs2))).
  { rewrite <- map_app, names_defaults. rewrite flat_map_app in N1. cbn [flat_map stored_names app] in N1. rewrite flat_map_app. now apply NoDup_remove_2 in N1. }
  rewrite (left_out_fields h cls cctx c n _ pr _ _ _ P L _ _ _ _ R).
  - apply new_default.
    + now rewrite names_defaults.
    + rewrite class_attrs_defaults. intros K. clear - N J K. induction (flat_map stored_names (fs1 ++ FOpt n m pr d :: fs2)) as [|x l IH]; [destruct J|]. inversion N as [|? ? A B]; subst.
      destruct J as [->|J]; [|now apply IH]. apply A, in_or_app. now right.
    + apply in_flat_map. exists (FOpt n (with_defaults kw m) pr (default_of kw n d)). split; [|now left]. rewrite map_app. apply in_or_app. right. now left.
    + reflexivity.
Qed.

(** ** Without extra arguments *)
Theorem read_without h :
  (forall m c s, read_kw h [] [] m c s = read h m c s)
  /\ (forall f cls cctx c st, read_field_kw h [] [] cls cctx f c st = read_field h cls cctx f c st).
Proof.
  assert (L : forall cls cctx c fs, Forall (fun f => forall cls cctx c st, read_field_kw h [] [] cls cctx f c st = read_field h cls cctx f c st) fs -> forall st,
    (fix go (fs : list field) : stM rstate unit := match fs with [] => sret tt | f :: r => do read_field_kw h [] [] cls cctx f c ;; go r end) fs st = read_fields h cls cctx fs c st).
  { intros cls cctx c fs. induction 1 as [|f fs E _ IH]; intros st; [reflexivity|]. rewrite read_fields_cons. apply sbind_same; [apply E|]. intros x t. apply IH. }
  apply marshal_field_ind.
  all: try (intros; reflexivity).
  - intros sz el IS IE c s. cbn [read_kw read]. apply sbind_same; [apply IS|]. intros len t.
    apply sbind_same; [reflexivity|]. intros n t'. apply sbind_same; [|reflexivity]. apply loop_same. intros. apply IE.
  - intros n el IE c s. cbn [read_kw read]. apply sbind_same; [|reflexivity]. apply loop_same. intros. apply IE.
  - intros sz el IS IE c s. cbn [read_kw read]. apply sbind_same; [reflexivity|]. intros len t.
    apply sbind_same; [reflexivity|]. intros n t'. apply sbind_same; [|reflexivity]. apply sum_same. intros. apply IE.
  - intros tbl m IE c s. cbn [read_kw read]. apply sbind_same; [apply IE|reflexivity].
  - intros cls cctx fs F c s. rewrite read_struct. cbn [read_kw]. now rewrite (L cls cctx c fs F).
  - intros key mapping d IK IM ID c s. cbn [read_kw read]. apply ahead_same. clear s. intros s.
    apply sbind_same; [reflexivity|]. intros [] t. apply sbind_same; [reflexivity|]. intros k t'. apply sbind_same; [reflexivity|]. intros [] t2.
    apply sbind_same; [reflexivity|]. intros [] t3. change (sel_has_key mapping k) with false. cbv iota.
    destruct d as [d|]; [|reflexivity]. apply sbind_same; [|reflexivity]. apply ID.
  - intros choices func mm F c s. cbn [read_kw read]. apply ahead_same. clear s. intros s.
    apply sbind_same; [reflexivity|]. intros [] t. apply sbind_same; [reflexivity|]. intros k t'. apply sbind_same; [reflexivity|]. intros [] t2.
    apply sbind_same; [|reflexivity]. clear - F. revert k. induction F as [|m l E _ IH]; intros k; [reflexivity|]. destruct k as [|k]; [apply E|apply IH].
  - intros n m d IM cls cctx c st. cbn [read_field_kw read_field]. apply sbind_same; [|reflexivity]. apply on_stream_same. intros. apply IM.
  - intros m IM cls cctx c st. cbn [read_field_kw read_field]. apply sbind_same; [|reflexivity]. apply on_stream_same. intros. apply IM.
  - intros n m k IM cls cctx c st. cbn [read_field_kw read_field]. apply sbind_same; [|reflexivity]. apply on_stream_same. intros. apply IM.
  - intros n m pr d IM cls cctx c st. cbn [read_field_kw read_field]. apply sbind_same; [reflexivity|]. intros [] t; [|reflexivity].
    apply sbind_same; [|reflexivity]. apply on_stream_same. intros. apply IM.
  - intros fs F cls cctx c st. rewrite read_group. now apply L.
Qed.

(** ** Numbers do not take them *)
Definition fails {S A} (m : stM S A) : Prop := forall s, exists e s', m s = (Err e, s').
Lemma fails_first {S A B} (m : stM S A) (k : A -> stM S B) : fails m -> fails (sbind m k).
Proof. intros F s. destruct (F s) as (e & s' & E). exists e, s'. unfold sbind. now rewrite E. Qed.
Lemma fails_then {S A B} (m : stM S A) (k : A -> stM S B) : (forall x, fails (k x)) -> fails (sbind m k).
Proof. intros F s. unfold sbind. destruct (m s) as [[x|e] t]; [apply F|eauto]. Qed.
Lemma fails_on {A} (m : stM stream A) : fails m -> fails (on_stream m).
Proof. intros F [s a]. destruct (F s) as (e & s' & E). exists e, (s', a). unfold on_stream. cbn [fst snd]. now rewrite E. Qed.
Theorem numbers_fail h args kw : extra args kw = true ->
  (forall m, has_number m -> forall c, fails (read_kw h args kw m c))
  /\ (forall f, has_number_in f -> forall cls cctx c, fails (read_field_kw h args kw cls cctx f c)).
Proof.
  intros X.
  assert (L : forall cls cctx c fs, Forall (fun f => has_number_in f -> forall cls cctx c, fails (read_field_kw h args kw cls cctx f c)) fs ->
    (fix go (fs : list field) : Prop := match fs with [] => False | f :: r => has_number_in f \/ go r end) fs ->
    fails ((fix go (fs : list field) : stM rstate unit := match fs with [] => sret tt | f :: r => do read_field_kw h args kw cls cctx f c ;; go r end) fs)).
  { intros cls cctx c fs. induction 1 as [|f fs E _ IH]; intros D; [destruct D|]. destruct D as [D|D]; [apply fails_first; now apply E|apply fails_then; intros _; now apply IH]. }
  apply marshal_field_ind.
  all: try (intros; cbn [has_number has_number_in] in *; contradiction).
  - intros f _ c s. cbn [read_kw]. rewrite X. unfold sraise. eauto.
  - intros f _ c s. cbn [read_kw]. rewrite X. unfold sraise. eauto.
  - intros sz el IS _ D c. cbn [read_kw]. apply fails_first. now apply IS.
  - intros n el IE [P D] c. cbn [read_kw]. apply fails_first. destruct (Z.to_nat n) as [|k] eqn:E; [lia|].
    change (stM_loop (Datatypes.S k) (read_kw h args kw el c)) with (sbind (read_kw h args kw el c) (fun x => sbind (stM_loop k (read_kw h args kw el c)) (fun r => sret (x :: r)))).
    apply fails_first. now apply IE.
  - intros tbl m IE D c. cbn [read_kw]. apply fails_first. now apply IE.
  - intros cls cctx fs F D c s. destruct (L cls cctx c fs F D (s, new_attrs fs kw)) as (e & [s' a] & E).
    match type of E with ?x = _ => change (exists e s', (match x with (Ok _, (s', a)) => (Ok (VObj cls a), s') | (Err e, (s', _)) => (Err e, s') end) = (@Err value e, s')) end.
    rewrite E. eauto.
  - intros n m d IM D cls cctx c st. cbn [read_field_kw]. apply fails_first. apply fails_on. now apply IM.
  - intros m IM D cls cctx c st. cbn [read_field_kw]. apply fails_first. apply fails_on. now apply IM.
  - intros n m k IM D cls cctx c st. cbn [read_field_kw]. apply fails_first. apply fails_on. now apply IM.
  - intros fs F D cls cctx c. apply (L cls cctx c fs F D).
Qed.

(** Lazy containers, part 1: reading a self-contained marshal depends on its own bytes only. *)
From Verif Require Import Base BaseProofs IntCodec BitStringIO Stream StreamSpec StreamProofs MinMax Marshal MarshalInd MarshalSpec
  FieldSpec FieldFacts SizeSpec SizeFacts SimFacts Lazy LazySpec.
From Coq Require Import ZArith List Bool String Lia ZifyBool ZifyNat.
Import ListNotations.
Open Scope Z_scope.
Ltac Zify.zify_post_hook ::= Z.div_mod_to_equations.

(** ** Reading keeps a stream in order *)
Definition keeps {A} (m : stM stream A) : Prop := forall s, stream_ok s -> stream_ok (snd (m s)).
Lemma keeps_bind {A B} (m : stM stream A) (f : A -> stM stream B) : keeps m -> (forall a, keeps (f a)) -> keeps (sbind m f).
Proof.
  intros H1 H2 s O. unfold sbind. specialize (H1 s O). destruct (m s) as [[a|e] s'] eqn:E; cbn [snd] in *; auto. now apply H2.
Qed.
Lemma keeps_ret {A} (a : A) : keeps (sret a). Proof. intros s O. exact O. Qed.
Lemma keeps_lift {A} (r : res A) : keeps (slift r). Proof. intros s O. exact O. Qed.
Lemma keeps_raise {A} e : keeps (@sraise stream A e). Proof. intros s O. exact O. Qed.
Lemma keeps_get : keeps sget. Proof. intros s O. exact O. Qed.
Lemma keeps_mode b : keeps (set_read_ahead b). Proof. intros [d p|b' m i] O; exact O. Qed.
Lemma keeps_empty : keeps is_read_ahead_empty. Proof. intros [d p|b' m i] O; exact O. Qed.
Lemma keeps_sread n : keeps (sread n).
Proof.
  intros s. unfold sread. revert n. induction s as [d p|b m i IH]; intros n O; cbn [sread_].
  - destruct (_ || _); [exact O|]. cbn [snd stream_ok] in *. unfold zlen in *.
    destruct (n <? 0); [rewrite skipn_length|rewrite firstn_length, skipn_length]; lia.
  - destruct (n <? 0); [exact O|]. destruct m.
    + specialize (IH n O). destruct (sread_ i n) as [[r|e] i']; exact IH.
    + destruct (_ <? n); [|exact O]. match goal with |- context [sread_ i ?k] => specialize (IH k O); destruct (sread_ i k) as [[r|e] i']; exact IH end.
Qed.
Lemma keeps_prog {A} (p : rprog A) : keeps (run_rprog p).
Proof. induction p as [r|n k IH]; cbn [run_rprog]; [apply keeps_lift|apply keeps_bind; [apply keeps_sread|exact IH]]. Qed.
Lemma keeps_loop {A} n (m : stM stream A) : keeps m -> keeps (stM_loop n m).
Proof.
  intros H. induction n as [|n IH]; [apply keeps_ret|]. change (stM_loop (S n) m) with (x <- m ;; r <- stM_loop n m ;; sret (x :: r)).
  apply keeps_bind; [exact H|]. intros x. apply keeps_bind; [exact IH|]. intros r. apply keeps_ret.
Qed.
Lemma keeps_sum fuel : forall rd total, keeps rd -> keeps (sum_loop fuel rd total).
Proof.
  induction fuel as [|fuel IH]; intros rd total H; cbn [sum_loop]; (destruct (total >? 0);
    [|apply keeps_bind; [apply keeps_lift|intros; apply keeps_ret]]); [apply keeps_raise|].
  apply keeps_bind; [apply keeps_get|]. intros s0. apply keeps_bind; [exact H|]. intros el. apply keeps_bind; [apply keeps_get|]. intros s1.
  destruct (stell s0), (stell s1); try apply keeps_raise. destruct (_ =? 0); [apply keeps_raise|].
  apply keeps_bind; [now apply IH|]. intros r. apply keeps_ret.
Qed.
Lemma keeps_ahead {A} (m : stM stream A) : keeps m -> keeps (with_read_ahead m).
Proof.
  intros H s O. unfold with_read_ahead. specialize (H (SReadAhead [] false s) O).
  destruct (m (SReadAhead [] false s)) as [r [d p|b md i]]; exact H.
Qed.
Definition keeps_field (h : host) (f : field) : Prop := forall cls cctx c s a, stream_ok s -> stream_ok (fst (snd (read_field h cls cctx f c (s, a)))).
Lemma keeps_fields h fs : Forall (keeps_field h) fs -> forall cls cctx c s a, stream_ok s -> stream_ok (fst (snd (read_fields h cls cctx fs c (s, a)))).
Proof.
  induction 1 as [|f r Hf _ IH]; intros cls cctx c s a O; [exact O|]. rewrite read_fields_cons. unfold sbind.
  specialize (Hf cls cctx c s a O). destruct (read_field h cls cctx f c (s, a)) as [[u|e] [s' a']]; [|exact Hf]. now apply IH.
Qed.
Lemma keeps_bits size bs s a : stream_ok s -> stream_ok (fst (snd (read_bit_container size bs (s, a)))).
Proof.
  intros O. unfold read_bit_container, sbind, on_stream. cbn [fst snd]. pose proof (keeps_sread size s O) as K.
  destruct (sread size s) as [[d|e] s']; [|exact K]. cbn [fst snd].
  destruct (sforeach bs read_bitfield (bs_new_bytes d, a)) as [r [b' a']]. exact K.
Qed.
Lemma keeps_all h : (forall m, forall c, keeps (read h m c)) /\ (forall f, keeps_field h f).
Proof.
  apply marshal_field_ind.
  - intros f c. cbn [read]. apply keeps_bind; [apply keeps_sread|]. intros b. destruct (_ <? _); [apply keeps_raise|]. destruct (struct_unpack_int _ _ _); [apply keeps_ret|apply keeps_raise].
  - intros f c. cbn [read]. apply keeps_bind; [apply keeps_sread|]. intros b. destruct (_ <? _); [apply keeps_raise|]. destruct (struct_unpack_float _ _ _); [apply keeps_ret|apply keeps_raise].
  - intros v c. apply keeps_ret.
  - intros f c. apply keeps_prog.
  - intros n c. apply keeps_lift.
  - intros sz p d H c. cbn [read]. apply keeps_bind; [apply H|]. intros v. apply keeps_bind; [apply keeps_lift|]. intros n. apply keeps_bind; [apply keeps_sread|].
    intros b. destruct (_ <? _); [apply keeps_raise|apply keeps_lift].
  - intros n p d c. cbn [read]. apply keeps_bind; [apply keeps_sread|]. intros b. destruct (_ <? _); [apply keeps_raise|apply keeps_lift].
  - intros n ch c. cbn [read]. apply keeps_bind; [apply keeps_sread|]. intros b. apply keeps_ret.
  - intros sz el H He c. cbn [read]. apply keeps_bind; [apply H|]. intros v. apply keeps_bind; [apply keeps_lift|]. intros n. apply keeps_bind; [apply keeps_loop, He|]. intros l. apply keeps_ret.
  - intros n el He c. cbn [read]. apply keeps_bind; [apply keeps_loop, He|]. intros l. apply keeps_ret.
  - intros sz el H He c. cbn [read]. apply keeps_bind; [apply H|]. intros v. apply keeps_bind; [apply keeps_lift|]. intros n. apply keeps_bind; [apply keeps_sum, He|]. intros l. apply keeps_ret.
  - intros tbl m H c. cbn [read]. apply keeps_bind; [apply H|]. intros v. apply keeps_lift.
  - intros cls cctx fs H c s O. rewrite read_struct. pose proof (keeps_fields h fs H cls cctx c s (new_attrs fs []) O) as K.
    destruct (read_fields _ _ _ _ _ _) as [[u|e] [s' a']]; exact K.
  - intros key mapping d H _ Hd c s O. rewrite read_sel. apply keeps_ahead; [|exact O]. clear s O.
    apply keeps_bind; [apply keeps_mode|intros _]. apply keeps_bind; [apply H|]. intros k. apply keeps_bind; [apply keeps_mode|intros _]. apply keeps_bind; [apply keeps_lift|intros _].
    destruct d as [m|]; [|apply keeps_raise]. apply keeps_bind; [apply Hd|]. intros v. apply keeps_bind; [apply keeps_empty|]. intros e. destruct (negb e); [apply keeps_raise|apply keeps_ret].
  - intros choices func mm H c s O. rewrite read_funsel. apply keeps_ahead; [|exact O]. clear s O.
    apply keeps_bind; [apply keeps_mode|intros _]. apply keeps_bind; [apply keeps_prog|]. intros k. apply keeps_bind; [apply keeps_mode|intros _].
    apply keeps_bind. { unfold read_choice. destruct (nth_error choices k) as [m|] eqn:E; [|apply keeps_raise]. apply nth_error_In in E. exact (proj1 (Forall_forall _ _) H m E c). }
    intros v. apply keeps_bind; [apply keeps_empty|]. intros e. destruct (negb e); [apply keeps_raise|apply keeps_ret].
  - intros n m d H cls cctx c s a O. rewrite read_field_field. match goal with |- context [read h m ?c' s] => specialize (H c' s O); destruct (read h m c' s) as [[v|e] s'] end; exact H.
  - intros m H cls cctx c s a O. rewrite read_field_anon. match goal with |- context [read h m ?c' s] => specialize (H c' s O); destruct (read h m c' s) as [[v|e] s'] end; exact H.
  - intros n m k H cls cctx c s a O. rewrite read_field_const. match goal with |- context [read h m ?c' s] => specialize (H c' s O); destruct (read h m c' s) as [[v|e] s'] end; [destruct (py_eq v k)|]; exact H.
  - intros n m pr d H cls cctx c s a O. rewrite read_field_opt.
    match goal with |- context [run_rprog ?p s] => pose proof (keeps_prog p s O) as K; destruct (run_rprog p s) as [[[|]|e] s'] end; try exact K. cbn [snd] in K.
    match goal with |- context [read h m ?c' s'] => specialize (H c' s' K); destruct (read h m c' s') as [[v|e] s''] end; exact H.
  - intros fs H cls cctx c s a O. rewrite read_group. now apply keeps_fields.
  - intros bs cls cctx c s a O. now apply keeps_bits.
  - intros n bs cls cctx c s a O. now apply keeps_bits.
Qed.

(** ** The number of bytes a self-contained marshal takes *)
Fixpoint span (m : marshal) : Z :=
  match m with
  | MInt f => isize_bytes (f_size f)
  | MFloat f => fsize_bytes (ff_size f)
  | MPadStr size _ _ | MBytePad size _ => size
  | MFixArr n el => n * span el
  | MMap _ m' => span m'
  | MStruct _ _ fs => (fix go (fs : list field) : Z := match fs with [] => 0 | f :: r => span_field f + go r end) fs
  | _ => 0
  end
with span_field (f : field) : Z :=
  match f with
  | FField _ m _ | FAnon m | FConst _ m _ => span m
  | FGroup fs => (fix go (fs : list field) : Z := match fs with [] => 0 | f :: r => span_field f + go r end) fs
  | FBits bs => bits_size bs
  | FPosBits size _ => size
  | _ => 0
  end.
Fixpoint span_fields (fs : list field) : Z := match fs with [] => 0 | f :: r => span_field f + span_fields r end.
Fixpoint contained_fields (fs : list field) : Prop := match fs with [] => True | f :: r => self_contained_field f /\ contained_fields r end.
Lemma span_struct cls cctx fs : span (MStruct cls cctx fs) = span_fields fs.
Proof. cbn [span]. induction fs as [|f r IH]; cbn; [reflexivity|]. now rewrite IH. Qed.
Lemma span_group fs : span_field (FGroup fs) = span_fields fs.
Proof. cbn [span_field]. induction fs as [|f r IH]; cbn; [reflexivity|]. now rewrite IH. Qed.
Lemma contained_struct cls cctx fs : self_contained (MStruct cls cctx fs) <-> contained_fields fs.
Proof. cbn [self_contained]. induction fs as [|f r IH]; cbn; [tauto|]. tauto. Qed.
Lemma contained_group fs : self_contained_field (FGroup fs) <-> contained_fields fs.
Proof. cbn [self_contained_field]. induction fs as [|f r IH]; cbn; [tauto|]. tauto. Qed.

Lemma span_fields_nonneg fs : Forall (fun f => self_contained_field f -> 0 <= span_field f) fs -> contained_fields fs -> 0 <= span_fields fs.
Proof. induction 1 as [|f r Hf _ IH]; cbn [contained_fields span_fields]; [lia|]. intros [H1 H2]. specialize (Hf H1). specialize (IH H2). lia. Qed.
Lemma span_nonneg_all : (forall m, self_contained m -> 0 <= span m) /\ (forall f, self_contained_field f -> 0 <= span_field f).
Proof.
  apply marshal_field_ind; try (intros; cbn [self_contained self_contained_field span span_field] in *; solve [lia|tauto]).
  - intros f _. cbn [span]. destruct (f_size f); cbn; lia.
  - intros f _. cbn [span]. destruct (ff_size f); cbn; lia.
  - intros n el H [Hn He]. cbn [span]. specialize (H He). nia.
  - intros cls cctx fs H K. rewrite span_struct. rewrite contained_struct in K. now apply span_fields_nonneg.
  - intros fs H K. rewrite span_group. rewrite contained_group in K. now apply span_fields_nonneg.
Qed.

(** It is the minimum size. *)
Lemma sum_min l : forall acc mm, mm_sum acc l = Ok mm -> 0 <= mm_min acc -> Forall (fun x => 0 <= mm_min x) l ->
  mm_min mm = mm_min acc + fold_right (fun x n => mm_min x + n) 0 l.
Proof.
  induction l as [|x r IH]; cbn [mm_sum]; intros acc mm E A F.
  - injection E as <-. cbn. lia.
  - unfold mm_add in E. destruct (MinMax _ _) as [y|e] eqn:M; cbn [rbind] in E; [|discriminate].
    inversion F as [|? ? F1 F2]; subst. apply MinMax_inv in M as [M0 M].
    assert (Y : mm_min y = mm_min x + mm_min acc) by (rewrite M; cbn [mm_min]; lia).
    rewrite (IH _ _ E); [cbn [fold_right]; lia|lia|exact F2].
Qed.
Lemma fields_min fs : Forall (fun f => self_contained_field f -> forall mm, min_max_field f = Ok mm -> mm_min mm = span_field f) fs ->
  contained_fields fs -> forall l, min_max_fields fs = Ok l -> fold_right (fun x n => mm_min x + n) 0 l = span_fields fs /\ Forall (fun x => 0 <= mm_min x) l.
Proof.
  induction 1 as [|f r Hf _ IH]; cbn [contained_fields min_max_fields span_fields]; intros C l E; [injection E as <-; cbn; auto|].
  destruct C as [C1 C2]. destruct (min_max_field f) as [x|e]; cbn [rbind] in E; [|discriminate].
  destruct (min_max_fields r) as [xs|e]; cbn [rbind] in E; [|discriminate]. injection E as <-.
  destruct (IH C2 xs eq_refl) as [I1 I2]. specialize (Hf C1 x eq_refl). cbn [fold_right]. split; [lia|]. constructor; [|exact I2].
  rewrite Hf. now apply span_nonneg_all.
Qed.
Lemma min_is_span : (forall m, self_contained m -> forall mm, min_max m = Ok mm -> mm_min mm = span m)
  /\ (forall f, self_contained_field f -> forall mm, min_max_field f = Ok mm -> mm_min mm = span_field f).
Proof.
  assert (MM : forall a b mm, MinMax a b = Ok mm -> 0 <= a -> mm_min mm = a).
  { intros a b mm M H. apply MinMax_inv in M as [M0 ->]. cbn [mm_min]. lia. }
  apply marshal_field_ind; try (intros; cbn [self_contained self_contained_field] in *; tauto).
  - intros f _ mm E. cbn [min_max span] in *. apply (MM _ _ _ E). destruct (f_size f); cbn; lia.
  - intros f _ mm E. cbn [min_max span] in *. apply (MM _ _ _ E). destruct (ff_size f); cbn; lia.
  - intros v _ mm E. cbn [min_max span] in *. apply (MM _ _ _ E). lia.
  - intros n p d H mm E. cbn [min_max span self_contained] in *. apply (MM _ _ _ E). lia.
  - intros n ch H mm E. cbn [min_max span self_contained] in *. apply (MM _ _ _ E). lia.
  - intros n el IH [H He] mm E. cbn [min_max span] in *. destruct (min_max el) as [x|e] eqn:X; cbn [rbind] in E; [|discriminate].
    specialize (IH He x eq_refl). pose proof (proj1 span_nonneg_all el He). rewrite (MM _ _ _ E); nia.
  - intros tbl m IH H mm E. cbn [min_max span self_contained] in *. destruct (min_max m) as [x|e] eqn:X; cbn [rbind] in E; [|discriminate].
    specialize (IH H x eq_refl). pose proof (proj1 span_nonneg_all m H). rewrite (MM _ _ _ E); lia.
  - intros cls cctx fs IH H mm E. rewrite span_struct. rewrite contained_struct in H. rewrite min_max_struct in E.
    destruct (min_max_fields fs) as [l|e] eqn:X; cbn [rbind] in E; [|discriminate]. destruct (fields_min fs IH H l X) as [I1 I2].
    rewrite (sum_min _ _ _ E); [cbn; lia|cbn; lia|exact I2].
  - intros n m d IH. exact IH.
  - intros m IH. exact IH.
  - intros n m k IH. exact IH.
  - intros fs IH H mm E. rewrite span_group. rewrite contained_group in H. rewrite min_max_group in E.
    destruct (min_max_fields fs) as [l|e] eqn:X; cbn [rbind] in E; [|discriminate]. destruct (fields_min fs IH H l X) as [I1 I2].
    rewrite (sum_min _ _ _ E); [cbn; lia|cbn; lia|exact I2].
  - intros bs H mm E. cbn [min_max_field span_field self_contained_field] in *. apply (MM _ _ _ E). lia.
  - intros n bs H mm E. cbn [min_max_field span_field self_contained_field] in *. apply (MM _ _ _ E). lia.
Qed.
Lemma lazy_size_span fs : contained_fields fs -> forall size, lazy_size fs = Ok size -> size = span_fields fs.
Proof.
  induction fs as [|f r IH]; cbn [contained_fields lazy_size span_fields]; intros C size E; [now injection E as <-|].
  destruct C as [C1 C2]. destruct (min_max_field f) as [x|e] eqn:X; cbn [rbind] in E; [|discriminate].
  destruct (negb _); [discriminate|]. destruct (lazy_size r) as [n|e] eqn:N; cbn [rbind] in E; [|discriminate]. injection E as <-.
  rewrite (IH C2 n eq_refl). now rewrite (proj2 min_is_span f C1 x X).
Qed.

(** ** Local programs: the same bytes give the same result and are consumed in the same number *)
Definition local {A} (n : Z) (m1 m2 : stM stream A) : Prop :=
  forall s1 s2, stream_ok s1 -> stream_ok s2 -> firstn (Z.to_nat n) (rest s1) = firstn (Z.to_nat n) (rest s2) ->
  exists r k, m1 s1 = (r, consume k s1) /\ m2 s2 = (r, consume k s2) /\ (k <= Nat.min (Z.to_nat n) (List.length (rest s1)))%nat
    /\ (forall a, r = Ok a -> k = Nat.min (Z.to_nat n) (List.length (rest s1))).

Lemma same_min n (l1 l2 : list Z) : firstn n l1 = firstn n l2 -> Nat.min n (List.length l1) = Nat.min n (List.length l2).
Proof. intros E. rewrite <- !firstn_length. now rewrite E. Qed.
Lemma same_after a b (l1 l2 : list Z) : firstn (a + b) l1 = firstn (a + b) l2 ->
  firstn a l1 = firstn a l2 /\ firstn b (skipn a l1) = firstn b (skipn a l2).
Proof.
  intros E. assert (E1 : firstn a l1 = firstn a l2).
  { rewrite <- (firstn_firstn l1 a (a + b)) || idtac. replace a with (Nat.min a (a + b)) by lia. rewrite <- !firstn_firstn. now rewrite E. }
  split; [exact E1|]. rewrite !firstn_add in E. rewrite E1 in E. now apply app_inv_head in E.
Qed.
Lemma local_ret {A} (r : res A) : local 0 (fun s => (r, s)) (fun s => (r, s)).
Proof. intros s1 s2 _ _ _. exists r, 0%nat. rewrite !consume_0. cbn. repeat split; auto; lia. Qed.
Lemma local_bind {A B} a b (m1 m2 : stM stream A) (f1 f2 : A -> stM stream B) : 0 <= a -> 0 <= b -> local a m1 m2 -> (forall x, local b (f1 x) (f2 x)) ->
  local (a + b) (sbind m1 f1) (sbind m2 f2).
Proof.
  intros Ha Hb H1 H2 s1 s2 O1 O2 E. replace (Z.to_nat (a + b)) with (Z.to_nat a + Z.to_nat b)%nat in * by lia.
  destruct (same_after _ _ _ _ E) as [E1 E2]. destruct (H1 s1 s2 O1 O2 E1) as (r & k & R1 & R2 & K & Ko). unfold sbind. rewrite R1, R2.
  destruct r as [x|e]. 2:{ exists (Err e), k. repeat split; auto; [lia|discriminate]. }
  pose proof (Ko x eq_refl) as Kx. pose proof (same_min _ _ _ E1) as SM.
  destruct (H2 x (consume k s1) (consume k s2)) as (r' & k' & R1' & R2' & K' & Ko').
  - apply consume_ok; auto. lia.
  - apply consume_ok; auto. lia.
  - rewrite !rest_consume by auto. rewrite Kx at 1. rewrite skipn_min. rewrite Kx, SM. now rewrite skipn_min.
  - rewrite rest_consume, skipn_length in K', Ko' by auto. rewrite consume_consume in R1' by auto. rewrite consume_consume in R2' by auto.
    exists r', (k + k')%nat. repeat split; auto; [lia|]. intros y ->. specialize (Ko' y eq_refl). lia.
Qed.
Lemma local_sread n : 0 <= n <= maxsize -> local n (sread n) (sread n).
Proof.
  intros H s1 s2 O1 O2 E. rewrite !sread_ok by auto. rewrite <- E. rewrite <- (same_min _ _ _ E).
  eexists _, _. split; [reflexivity|]. split; [reflexivity|]. split; [lia|]. auto.
Qed.
Lemma local_then {A B} n (m1 m2 : stM stream A) (f : A -> res B) : 0 <= n -> local n m1 m2 ->
  local n (sbind m1 (fun x => slift (f x))) (sbind m2 (fun x => slift (f x))).
Proof. intros H L. replace n with (n + 0) by lia. apply local_bind; [lia|lia|exact L|]. intros x. apply local_ret. Qed.
Lemma local_ext {A} n (m1 m2 m1' m2' : stM stream A) : (forall s, m1 s = m1' s) -> (forall s, m2 s = m2' s) -> local n m1 m2 -> local n m1' m2'.
Proof. intros E1 E2 L s1 s2 O1 O2 E. rewrite <- E1, <- E2. now apply L. Qed.
Lemma local_loop {A} (m1 m2 : stM stream A) a : 0 <= a -> local a m1 m2 -> forall n, local (Z.of_nat n * a) (stM_loop n m1) (stM_loop n m2).
Proof.
  intros Ha H. induction n as [|n IH]; [apply local_ret|].
  change (stM_loop (S n) m1) with (x <- m1 ;; r <- stM_loop n m1 ;; sret (x :: r)).
  change (stM_loop (S n) m2) with (x <- m2 ;; r <- stM_loop n m2 ;; sret (x :: r)).
  replace (Z.of_nat (S n) * a) with (a + Z.of_nat n * a) by lia. apply local_bind; [lia|nia|exact H|].
  intros x. apply (local_then _ _ _ (fun r => Ok (x :: r))); [nia|exact IH].
Qed.

(** Reading fields into an object: what is stored depends on the bytes only. *)
Definition set_all (vals : list (name * value)) (a : attrs) : attrs := fold_left (fun a p => set_attr a (fst p) (snd p)) vals a.
Definition local_fields {A} (n : Z) (names : list name) (m1 m2 : stM rstate A) : Prop :=
  forall s1 s2, stream_ok s1 -> stream_ok s2 -> firstn (Z.to_nat n) (rest s1) = firstn (Z.to_nat n) (rest s2) ->
  exists r k vals, (forall a, m1 (s1, a) = (r, (consume k s1, set_all vals a))) /\ (forall a, m2 (s2, a) = (r, (consume k s2, set_all vals a)))
    /\ (k <= Nat.min (Z.to_nat n) (List.length (rest s1)))%nat
    /\ (forall x, r = Ok x -> k = Nat.min (Z.to_nat n) (List.length (rest s1)) /\ map fst vals = names).
Lemma set_all_app v1 v2 a : set_all (v1 ++ v2) a = set_all v2 (set_all v1 a).
Proof. apply fold_left_app. Qed.
Lemma bits_vals bs : forall b, exists r b' vals, (forall a, sforeach bs read_bitfield (b, a) = (r, (b', set_all vals a)))
  /\ (forall x, r = Ok x -> map fst vals = flat_map (fun b => match b with BField n _ _ => [n] | _ => [] end) bs).
Proof.
  induction bs as [|f bs IH]; intros b; cbn [sforeach flat_map].
  - exists (Ok tt), b, []. split; [reflexivity|reflexivity].
  - destruct (bm_read (bf_marshal f) b) as [[v|e] b1] eqn:E.
    + destruct (IH b1) as (r & b2 & vals & R & N). destruct f as [n m d|m|n m k].
      * exists r, b2, ((n, v) :: vals). split; [|intros x Hx; cbn [map fst]; now rewrite (N x Hx)].
        intros a. unfold sbind, read_bitfield at 1. cbn [fst snd bf_marshal] in *. rewrite E, R. reflexivity.
      * exists r, b2, vals. split; [|intros x Hx; now rewrite (N x Hx)].
        intros a. unfold sbind, read_bitfield at 1. cbn [fst snd bf_marshal] in *. rewrite E, R. reflexivity.
      * destruct (py_eq v k) eqn:Q.
        -- exists r, b2, vals. split; [|intros x Hx; now rewrite (N x Hx)].
           intros a. unfold sbind, read_bitfield at 1. cbn [fst snd bf_marshal] in *. rewrite E, Q, R. reflexivity.
        -- exists (Err InstructError), b1, []. split; [|discriminate].
           intros a. unfold sbind, read_bitfield at 1. cbn [fst snd bf_marshal] in *. now rewrite E, Q.
    + exists (Err e), b1, []. split; [|discriminate]. intros a. unfold sbind, read_bitfield at 1. cbn [fst snd]. now rewrite E.
Qed.
Lemma local_bits size bs : 0 <= size <= maxsize -> local_fields size (flat_map (fun b => match b with BField n _ _ => [n] | _ => [] end) bs) (read_bit_container size bs) (read_bit_container size bs).
Proof.
  intros H s1 s2 O1 O2 E. destruct (local_sread size H s1 s2 O1 O2 E) as (r & k & R1 & R2 & K & Ko).
  destruct r as [d|e].
  - destruct (bits_vals bs (bs_new_bytes d)) as (r & b' & vals & V & N). exists r, k, vals. split; [|split; [|split; [exact K|]]].
    + intros a. unfold read_bit_container, sbind, on_stream. cbn [fst snd]. rewrite R1. cbn [fst snd]. now rewrite V.
    + intros a. unfold read_bit_container, sbind, on_stream. cbn [fst snd]. rewrite R2. cbn [fst snd]. now rewrite V.
    + intros x Hx. split; [exact (Ko d eq_refl)|exact (N x Hx)].
  - exists (Err e), k, []. split; [|split; [|split; [exact K|discriminate]]]; intros a; unfold read_bit_container, sbind, on_stream; cbn [fst snd]; [now rewrite R1|now rewrite R2].
Qed.

Section Local.
Variable h : host.
Definition Lm (m : marshal) : Prop := self_contained m -> forall c1 c2, local (span m) (read h m c1) (read h m c2).
Definition Lf (f : field) : Prop := self_contained_field f -> forall cls1 cls2 cctx1 cctx2 c1 c2,
  local_fields (span_field f) (stored_names f) (read_field h cls1 cctx1 f c1) (read_field h cls2 cctx2 f c2).
Lemma local_fields_all fs : Forall Lf fs -> contained_fields fs -> forall cls1 cls2 cctx1 cctx2 c1 c2,
  local_fields (span_fields fs) (flat_map stored_names fs) (read_fields h cls1 cctx1 fs c1) (read_fields h cls2 cctx2 fs c2).
Proof.
  induction 1 as [|f r Hf _ IH]; intros C cls1 cls2 cctx1 cctx2 c1 c2 s1 s2 O1 O2 E.
  - exists (Ok tt), 0%nat, []. cbn [span_fields] in *. rewrite !consume_0. cbn. repeat split; auto; lia.
  - cbn [contained_fields span_fields flat_map] in *. destruct C as [C1 C2].
    pose proof (proj2 span_nonneg_all f C1) as N1. assert (N2 : 0 <= span_fields r) by (apply span_fields_nonneg; [apply Forall_forall; intros; now apply span_nonneg_all|exact C2]).
    replace (Z.to_nat (span_field f + span_fields r)) with (Z.to_nat (span_field f) + Z.to_nat (span_fields r))%nat in * by lia.
    destruct (same_after _ _ _ _ E) as [E1 E2].
    destruct (Hf C1 cls1 cls2 cctx1 cctx2 c1 c2 s1 s2 O1 O2 E1) as (x & k & vals & R1 & R2 & K & Ko).
    destruct x as [u|e].
    2:{ exists (Err e), k, vals. split; [|split; [|split; [lia|discriminate]]]; intros a; rewrite read_fields_cons; unfold sbind; [now rewrite R1|now rewrite R2]. }
    destruct (Ko u eq_refl) as [Kx Nx]. pose proof (same_min _ _ _ E1) as SM.
    destruct (IH C2 cls1 cls2 cctx1 cctx2 c1 c2 (consume k s1) (consume k s2)) as (r' & k' & vals' & R1' & R2' & K' & Ko').
    + apply consume_ok; auto. lia.
    + apply consume_ok; auto. lia.
    + rewrite !rest_consume by auto. rewrite Kx at 1. rewrite skipn_min. rewrite Kx, SM. now rewrite skipn_min.
    + rewrite rest_consume, skipn_length in K', Ko' by auto. exists r', (k + k')%nat, (vals ++ vals'). split; [|split; [|split; [lia|]]].
      * intros a. rewrite read_fields_cons. unfold sbind. rewrite R1, R1'. rewrite consume_consume by auto. now rewrite set_all_app.
      * intros a. rewrite read_fields_cons. unfold sbind. rewrite R2, R2'. rewrite consume_consume by auto. now rewrite set_all_app.
      * intros y ->. destruct (Ko' y eq_refl) as [K2 N3]. split; [lia|]. rewrite map_app. now rewrite Nx, N3.
Qed.
Lemma blind_read m : self_contained m -> (forall c1 c2, local (span m) (read h m c1) (read h m c2)) ->
  forall s, stream_ok s -> forall c c', read h m c s = read h m c' s.
Proof. intros C H s O c c'. destruct (H c c' s s O O eq_refl) as (r & k & R1 & R2 & _). now rewrite R1, R2. Qed.
Lemma local_all : (forall m, Lm m) /\ (forall f, Lf f).
Proof.
  assert (B8 : forall s, 0 <= isize_bytes s <= maxsize) by (intros []; cbn; unfold maxsize; lia).
  assert (F8 : forall s, 0 <= fsize_bytes s <= maxsize) by (intros []; cbn; unfold maxsize; lia).
  apply marshal_field_ind; try (intros; intros C; cbn [self_contained self_contained_field] in C; tauto).
  - intros f _ c1 c2. cbn [span]. apply (local_ext _ (sbind (sread (isize_bytes (f_size f))) (fun p => slift (if zlen p <? isize_bytes (f_size f) then Err (NotEnoughDataError (isize_bytes (f_size f)) (zlen p)) else match struct_unpack_int h f p with Ok z => Ok (VInt z) | Err _ => Err InstructError end)))
      (sbind (sread (isize_bytes (f_size f))) (fun p => slift (if zlen p <? isize_bytes (f_size f) then Err (NotEnoughDataError (isize_bytes (f_size f)) (zlen p)) else match struct_unpack_int h f p with Ok z => Ok (VInt z) | Err _ => Err InstructError end)))).
    + intros s. cbn [read]. unfold sbind. destruct (sread _ s) as [[p|e] s']; [|reflexivity]. destruct (_ <? _); [reflexivity|]. now destruct (struct_unpack_int h f p).
    + intros s. cbn [read]. unfold sbind. destruct (sread _ s) as [[p|e] s']; [|reflexivity]. destruct (_ <? _); [reflexivity|]. now destruct (struct_unpack_int h f p).
    + specialize (B8 (f_size f)). apply local_then; [lia|now apply local_sread].
  - intros f _ c1 c2. cbn [span]. apply (local_ext _ (sbind (sread (fsize_bytes (ff_size f))) (fun p => slift (if zlen p <? fsize_bytes (ff_size f) then Err (NotEnoughDataError (fsize_bytes (ff_size f)) (zlen p)) else match struct_unpack_float h f p with Ok z => Ok (VFloat z) | Err _ => Err InstructError end)))
      (sbind (sread (fsize_bytes (ff_size f))) (fun p => slift (if zlen p <? fsize_bytes (ff_size f) then Err (NotEnoughDataError (fsize_bytes (ff_size f)) (zlen p)) else match struct_unpack_float h f p with Ok z => Ok (VFloat z) | Err _ => Err InstructError end)))).
    + intros s. cbn [read]. unfold sbind. destruct (sread _ s) as [[p|e] s']; [|reflexivity]. destruct (_ <? _); [reflexivity|]. now destruct (struct_unpack_float h f p).
    + intros s. cbn [read]. unfold sbind. destruct (sread _ s) as [[p|e] s']; [|reflexivity]. destruct (_ <? _); [reflexivity|]. now destruct (struct_unpack_float h f p).
    + specialize (F8 (ff_size f)). apply local_then; [lia|now apply local_sread].
  - intros v _ c1 c2. apply local_ret.
  - intros n p d C c1 c2. cbn [span self_contained] in *. apply (local_ext _ (sbind (sread n) (fun b => slift (if zlen b <? n then Err InstructError else _strip (VBytes b) d p)))
      (sbind (sread n) (fun b => slift (if zlen b <? n then Err InstructError else _strip (VBytes b) d p)))).
    + intros s. cbn [read]. unfold sbind. destruct (sread _ s) as [[b|e] s']; [|reflexivity]. now destruct (_ <? _).
    + intros s. cbn [read]. unfold sbind. destruct (sread _ s) as [[b|e] s']; [|reflexivity]. now destruct (_ <? _).
    + apply local_then; [lia|now apply local_sread].
  - intros n ch C c1 c2. cbn [span self_contained read] in *. apply (local_then n _ _ (fun _ => Ok VNone)); [lia|now apply local_sread].
  - intros n el IH [C Ce] c1 c2. cbn [span read]. pose proof (proj1 span_nonneg_all el Ce).
    replace (n * span el) with (Z.of_nat (Z.to_nat n) * span el) by (rewrite Z2Nat.id by lia; reflexivity).
    apply (local_then _ _ _ (fun l => Ok (VList l))); [nia|]. apply local_loop; [lia|]. now apply IH.
  - intros tbl m IH C c1 c2. cbn [span read self_contained] in *. apply local_then; [now apply span_nonneg_all|now apply IH].
  - intros cls cctx fs IH C c1 c2 s1 s2 O1 O2 E. rewrite span_struct in *. rewrite contained_struct in C. rewrite !read_struct.
    destruct (local_fields_all fs IH C cls cls cctx cctx c1 c2 s1 s2 O1 O2 E) as (r & k & vals & R1 & R2 & K & Ko). rewrite R1, R2.
    destruct r as [u|e]; eexists _, k; (split; [reflexivity|]); (split; [reflexivity|]); (split; [exact K|]); [|discriminate]. intros _ _. exact (proj1 (Ko u eq_refl)).
  - intros n m d IH C cls1 cls2 cctx1 cctx2 c1 c2 s1 s2 O1 O2 E. cbn [span_field self_contained_field stored_names] in *.
    destruct (IH C [] [] s1 s2 O1 O2 E) as (r & k & R1 & R2 & K & Ko). pose proof (blind_read m C (IH C) s1 O1) as B1. pose proof (blind_read m C (IH C) s2 O2) as B2.
    destruct r as [v|e].
    + exists (Ok tt), k, [(n, v)]. split; [|split; [|split; [exact K|]]].
      * intros a. rewrite read_field_field, (B1 _ []), R1. reflexivity.
      * intros a. rewrite read_field_field, (B2 _ []), R2. reflexivity.
      * intros _ _. split; [exact (Ko v eq_refl)|reflexivity].
    + exists (Err e), k, []. split; [|split; [|split; [exact K|discriminate]]]; intros a; rewrite read_field_field; [now rewrite (B1 _ []), R1|now rewrite (B2 _ []), R2].
  - intros m IH C cls1 cls2 cctx1 cctx2 c1 c2 s1 s2 O1 O2 E. cbn [span_field self_contained_field stored_names] in *.
    destruct (IH C [] [] s1 s2 O1 O2 E) as (r & k & R1 & R2 & K & Ko). pose proof (blind_read m C (IH C) s1 O1) as B1. pose proof (blind_read m C (IH C) s2 O2) as B2.
    destruct r as [v|e].
    + exists (Ok tt), k, []. split; [|split; [|split; [exact K|]]].
      * intros a. rewrite read_field_anon, (B1 _ []), R1. reflexivity.
      * intros a. rewrite read_field_anon, (B2 _ []), R2. reflexivity.
      * intros _ _. split; [exact (Ko v eq_refl)|reflexivity].
    + exists (Err e), k, []. split; [|split; [|split; [exact K|discriminate]]]; intros a; rewrite read_field_anon; [now rewrite (B1 _ []), R1|now rewrite (B2 _ []), R2].
  - intros n m k0 IH C cls1 cls2 cctx1 cctx2 c1 c2 s1 s2 O1 O2 E. cbn [span_field self_contained_field stored_names] in *.
    destruct (IH C [] [] s1 s2 O1 O2 E) as (r & k & R1 & R2 & K & Ko). pose proof (blind_read m C (IH C) s1 O1) as B1. pose proof (blind_read m C (IH C) s2 O2) as B2.
    destruct r as [v|e].
    + exists (if py_eq v k0 then Ok tt else Err InstructError), k, []. split; [|split; [|split; [exact K|]]].
      * intros a. rewrite read_field_const, (B1 _ []), R1. reflexivity.
      * intros a. rewrite read_field_const, (B2 _ []), R2. reflexivity.
      * intros _ _. split; [exact (Ko v eq_refl)|reflexivity].
    + exists (Err e), k, []. split; [|split; [|split; [exact K|discriminate]]]; intros a; rewrite read_field_const; [now rewrite (B1 _ []), R1|now rewrite (B2 _ []), R2].
  - intros fs IH C cls1 cls2 cctx1 cctx2 c1 c2 s1 s2 O1 O2 E. rewrite span_group in *. rewrite contained_group in C.
    exact (local_fields_all fs IH C cls1 cls2 cctx1 cctx2 c1 c2 s1 s2 O1 O2 E).
  - intros bs C cls1 cls2 cctx1 cctx2 c1 c2. exact (local_bits _ bs C).
  - intros n bs C cls1 cls2 cctx1 cctx2 c1 c2. exact (local_bits _ bs C).
Qed.
Lemma group_local fs : contained_fields fs -> forall cls cctx c1 c2,
  local_fields (span_fields fs) (flat_map stored_names fs) (read_fields h cls cctx fs c1) (read_fields h cls cctx fs c2).
Proof. intros C cls cctx c1 c2. apply local_fields_all; [apply Forall_forall; intros f _; apply local_all|exact C]. Qed.
End Local.

(** Facts for C116: objects with a container that could not be decoded. *)
From Verif Require Import Base BaseProofs IntCodec BitStringIO Stream StreamSpec StreamProofs MinMax Marshal MarshalInd MarshalSpec
  FieldSpec FieldFacts SizeSpec SizeFacts SimFacts Lazy LazySpec LazyProofs LazyFacts LazyFailSpec.
From Coq Require Import ZArith List Bool String Lia ZifyBool ZifyNat.
Import ListNotations.
Open Scope Z_scope.
Ltac Zify.zify_post_hook ::= Z.div_mod_to_equations.

(** ** Where reading fails *)
Lemma failing_field h cls cctx c f s a e s' a' : lazy_field_ok f -> read_field h cls cctx f c (s, a) = (Err e, (s', a')) -> a' = a.
Proof.
  destruct f as [n m d|m| | | | |]; try easy; intros _ E.
  - rewrite read_field_field in E. destruct (read h m _ s) as [[v|e'] s1]; [discriminate|]. congruence.
  - rewrite read_field_anon in E. destruct (read h m _ s) as [[v|e'] s1]; [discriminate|]. congruence.
Qed.
Lemma fail_split h cls cctx c fs : Forall lazy_field_ok fs -> forall s a e s' a', read_fields h cls cctx fs c (s, a) = (Err e, (s', a')) ->
  exists pre f post sm, fs = pre ++ f :: post /\ read_fields h cls cctx pre c (s, a) = (Ok tt, (sm, a'))
    /\ read_fields h cls cctx (pre ++ [f]) c (s, a) = (Err e, (s', a')).
Proof.
  induction 1 as [|f r Hf _ IH]; intros s a e s' a' E; [discriminate|]. rewrite read_fields_cons in E. unfold sbind in E.
  destruct (read_field h cls cctx f c (s, a)) as [[u|e1] [s1 a1]] eqn:F.
  - destruct (IH _ _ _ _ _ E) as (pre & g & post & sm & -> & P & Q). exists (f :: pre), g, post, sm. split; [reflexivity|].
    cbn [app]. rewrite !read_fields_cons. unfold sbind. rewrite F. now split.
  - injection E as -> -> ->. pose proof (failing_field _ _ _ _ _ _ _ _ _ _ Hf F) as ->. exists [], f, r, s. split; [reflexivity|]. split; [reflexivity|].
    cbn [app]. rewrite read_fields_cons. unfold sbind. now rewrite F.
Qed.
Lemma span_app l r : span_fields (l ++ r) = span_fields l + span_fields r.
Proof. induction l as [|f l IH]; cbn [app span_fields]; lia. Qed.
Lemma span_pos fs : Forall lazy_field_ok fs -> 0 <= span_fields fs.
Proof. intros H. apply span_fields_nonneg; [apply Forall_forall; intros; now apply span_nonneg_all|now apply contained_lazy]. Qed.
Lemma firstn_less {A} (n m : nat) (l : list A) : (n <= m)%nat -> firstn n l = firstn n (firstn m l).
Proof. intros H. rewrite firstn_firstn. now rewrite Nat.min_l. Qed.

(** ** Attributes *)
Lemma apart {A} (l r : list A) : NoDup (l ++ r) -> forall x, In x l -> ~ In x r.
Proof.
  induction l as [|y l IH]; intros N x; [easy|]. cbn [app] in N. inversion N as [|? ? N1 N2]; subst. intros [-> |H]; [|now apply IH].
  intros Hr. apply N1. apply in_or_app. now right.
Qed.
Lemma no_class fs : Forall lazy_field_ok fs -> flat_map class_attrs_f fs = [].
Proof. induction 1 as [|f r Hf _ IH]; [reflexivity|]. destruct f; try easy; cbn [flat_map class_attrs_f app]; exact IH. Qed.
Lemma fresh_lookup fs : Forall lazy_field_ok fs -> forall n, ~ In n (names_of fs) -> lookup (new_attrs [FGroup fs] []) n = None.
Proof.
  intros H n Hn. unfold new_attrs. cbn [fold_left prepare_instance].
  assert (C : class_attrs [FGroup fs] = []). { unfold class_attrs. cbn [flat_map class_attrs_f]. rewrite app_nil_r. clear Hn. induction H as [|f r Hf _ IH]; [reflexivity|]. destruct f; try easy; cbn [flat_map class_attrs_f app]; exact IH. }
  rewrite C. assert (G : forall a, lookup a n = None -> lookup (fold_left (prepare_instance []) fs a) n = None); [|apply G; reflexivity].
  clear C. unfold names_of in Hn. induction H as [|f r Hf _ IH]; intros a Ha; [exact Ha|]. cbn [fold_left flat_map] in *. rewrite in_app_iff in Hn. apply IH; [tauto|].
  destruct f as [m ? ?|m| | | | |]; try easy. cbn [prepare_instance]. rewrite prepare_other; [exact Ha|]. intros ->. apply Hn. left. now left.
Qed.
Lemma new_empty fs : Forall lazy_field_ok fs -> lazy_new [ILazy fs] [] = mkLobj [] [].
Proof.
  intros H. unfold lazy_new. cbn [flat_map item_class_attrs fold_left prepare_item]. rewrite app_nil_r. f_equal.
  assert (C : flat_map (fun f => match lazy_name f with Some _ => [] | None => class_attrs_f f end) fs = []).
  { induction H as [|f r Hf _ IH]; [reflexivity|]. destruct f; try easy; cbn [flat_map lazy_name class_attrs_f app]; exact IH. }
  rewrite C. clear C. induction H as [|f r Hf _ IH]; [reflexivity|]. cbn [fold_left]. destruct f; try easy; exact IH.
Qed.
Lemma same_assigned ws : forall a b, (forall n, lookup a n = lookup b n) -> forall n, lookup (assigned ws a) n = lookup (assigned ws b) n.
Proof.
  induction ws as [|[m v] ws IH]; intros a b H n; [apply H|]. cbn [assigned fold_left fst snd]. apply IH. intros k.
  destruct (String.string_dec m k) as [->|N]; [now rewrite !lookup_set_same|]. now rewrite !lookup_set_other.
Qed.
Lemma assigned_keeps ws : forall a n, In n (map fst ws) \/ lookup a n <> None -> lookup (assigned ws a) n <> None.
Proof.
  induction ws as [|[m v] ws IH]; intros a n; cbn [map In fst assigned fold_left snd]; [intros [[]|H]; exact H|].
  intros H. apply IH. destruct (String.string_dec m n) as [->|N]; [right; rewrite lookup_set_same; discriminate|]. rewrite lookup_set_other by exact N. tauto.
Qed.

(** ** Writing needs every name *)
Lemma write_needs h fs a : forall out out', write_lazy_fields h fs a out = (Ok tt, out') -> Forall lazy_field_ok fs -> forall n, In n (names_of fs) -> lookup a n <> None.
Proof.
  unfold names_of. induction fs as [|f r IH]; intros out out' E H n Hn; [destruct Hn|]. inversion H as [|? ? H1 H2]; subst. cbn [write_lazy_fields flat_map] in *. unfold sbind in E.
  destruct (write_lazy_field h f a out) as [[u|e] out1] eqn:W; [|discriminate]. apply in_app_iff in Hn as [Hn|Hn]; [|now apply (IH _ _ E H2)].
  destruct f as [m ? ?|m| | | | |]; try easy. destruct Hn as [-> |[]]. cbn [write_lazy_field] in W. destruct (lookup a n); [discriminate|discriminate W].
Qed.

(** ** After the failure *)
Section After.
Variables (h : host) (cls : name) (cctx : option ctx) (fs : list field).
Hypothesis Kf : Forall lazy_field_ok fs.
Lemma owner_one n : In n (names_of fs) -> owner 0 [ILazy fs] n = Some (0%nat, fs).
Proof. intros Hn. cbn [owner]. now rewrite (proj2 (lazy_names_in fs n Kf) Hn). Qed.
Lemma get_after a n : In n (names_of fs) ->
  lazy_get h cls cctx [ILazy fs] n (mkLobj a []) = (match lookup a n with Some v => Ok v | None => Err KeyError end, mkLobj a []).
Proof. intros Hn. unfold lazy_get. rewrite (owner_one n Hn). reflexivity. Qed.
Lemma bytes_after a n : In n (names_of fs) -> lookup a n = None -> exists e, fst (lazy_to_bytes h cls cctx [ILazy fs] (mkLobj a [])) = Err e.
Proof.
  intros Hn La. unfold lazy_to_bytes. cbn [write_items]. unfold sbind, write_item. cbn [fst snd instantiate lo_data pending].
  change (instantiate h cls cctx 0 fs (mkLobj a [])) with (@Ok unit tt, mkLobj a []). cbv beta iota. cbn [lo_attrs].
  destruct (write_lazy_fields h fs a []) as [[[]|e] out] eqn:W; [|eexists; reflexivity]. exfalso. exact (write_needs h fs a _ _ W Kf n Hn La).
Qed.
Lemma assignments_after ws us : incl (map fst ws) (names_of fs) -> forall a,
  history_lazy h cls cctx [ILazy fs] (assignments ws ++ us) (mkLobj a [])
  = map (fun _ => ADone (Ok tt)) ws ++ history_lazy h cls cctx [ILazy fs] us (mkLobj (assigned ws a) []).
Proof.
  induction ws as [|[n v] ws IH]; intros I a; [reflexivity|]. cbn [assignments map app history_lazy use_lazy fst snd].
  unfold lazy_set. rewrite (owner_one n) by (apply I; now left). unfold sbind. change (instantiate h cls cctx 0 fs (mkLobj a [])) with (@Ok unit tt, mkLobj a []).
  cbn [sget sput lo_attrs lo_data]. f_equal. apply IH. intros x Hx. apply I. now right.
Qed.
Lemma repaired a E us : NoDup (names_of fs) -> (forall n, lookup a n = lookup E n) -> (forall n, In n (names_of fs) -> lookup E n <> None) ->
  (exists size, lazy_size fs = Ok size /\ size <= maxsize) ->
  history_lazy h cls cctx [ILazy fs] us (mkLobj a []) = history_eager h cls cctx [FGroup fs] us E.
Proof.
  intros N S T Z. change [FGroup fs] with (map eager [ILazy fs]). apply history_refines.
  - constructor; [|constructor]. split; [exact Kf|exact Z].
  - cbn [flat_map]. rewrite app_nil_r. unfold item_names. cbn [eager].
    assert (C : class_attrs_f (FGroup fs) = []). { cbn [class_attrs_f]. exact (no_class fs Kf). }
    rewrite C. cbn [map]. rewrite app_nil_r. exact N.
  - split; cbn [lo_attrs lo_data pending]; [discriminate|intros n _; apply S|].
    intros [|k] fs' n Hk Hn; [injection Hk as <-; now apply T|]. destruct k; discriminate.
Qed.
End After.

Lemma fails_once h cls cctx fs c s e s' u : Forall lazy_field_ok fs -> (exists size, lazy_size fs = Ok size /\ size <= maxsize) -> NoDup (names_of fs) ->
  stream_ok s -> needs fs u -> read h (MStruct cls cctx [FGroup fs]) c s = (Err e, s') ->
  exists o s1 pre f post E s2, lazy_read h cls cctx [ILazy fs] c s = (Ok o, s1) /\ fs = pre ++ f :: post
    /\ read h (MStruct cls cctx [FGroup pre]) c s = (Ok (VObj cls E), s2) /\ fst (read h (MStruct cls cctx [FGroup (pre ++ [f])]) c s) = Err e
    /\ exists x o1, use_lazy h cls cctx [ILazy fs] u o = (x, o1) /\ raised e x
    /\ (forall n, In n (names_of pre) -> exists v, lookup E n = Some v /\ lazy_get h cls cctx [ILazy fs] n o1 = (Ok v, o1))
    /\ (forall n, In n (names_of (f :: post)) -> lazy_get h cls cctx [ILazy fs] n o1 = (Err KeyError, o1))
    /\ (forall n, In n (names_of (f :: post)) -> exists e', fst (lazy_to_bytes h cls cctx [ILazy fs] o1) = Err e')
    /\ (forall ws us, map fst ws = names_of (f :: post) ->
          history_lazy h cls cctx [ILazy fs] (assignments ws ++ us) o1
          = map (fun _ => ADone (Ok tt)) ws ++ history_eager h cls cctx [FGroup fs] us (assigned ws E)).
Proof.
  intros Kf Z Nd O Hu Er. destruct Z as (size & Ks & Kb). pose proof (contained_lazy fs Kf) as Cf. pose proof (lazy_size_span fs Cf size Ks) as Es.
  pose proof (span_pos fs Kf) as N0.
  set (data := firstn (Z.to_nat size) (rest s)). destruct (stream_of_ok data) as [Od Rd].
  assert (Lo : forall l, Forall lazy_field_ok l -> span_fields l <= span_fields fs -> exists r k vals,
     (forall a, read_fields h cls cctx l c (s, a) = (r, (consume k s, set_all vals a)))
     /\ (forall a, read_fields h cls cctx l c (stream_of data, a) = (r, (consume k (stream_of data), set_all vals a)))
     /\ (forall x, r = Ok x -> map fst vals = names_of l)).
  { intros l Kl Sl. pose proof (span_pos l Kl) as N1. destruct (group_local h l (contained_lazy l Kl) cls cctx c c s (stream_of data) O Od) as (r & k & vals & V1 & V2 & _ & Ko).
    - rewrite Rd. unfold data. apply firstn_less. lia.
    - exists r, k, vals. split; [exact V1|]. split; [exact V2|]. intros x Hx. exact (proj2 (Ko x Hx)). }
  destruct (Lo fs Kf ltac:(lia)) as (r & k & vals & V1 & V2 & _).
  rewrite read_struct, read_fields_cons in Er. unfold sbind in Er. rewrite read_group, V1 in Er.
  destruct r as [[]|e']; [discriminate|]. injection Er as -> _.
  pose proof (V2 []) as D. destruct (fail_split _ _ _ _ _ Kf _ _ _ _ _ D) as (pre & f & post & sm & Ef & P & Q).
  assert (Kp : Forall lazy_field_ok pre /\ Forall lazy_field_ok (f :: post)) by (rewrite Ef in Kf; apply Forall_app in Kf; exact Kf). destruct Kp as [Kp Kq].
  assert (K1 : Forall lazy_field_ok [f] /\ Forall lazy_field_ok post) by (inversion Kq; auto). destruct K1 as [K1 K2].
  pose proof (span_pos _ Kp) as S1. pose proof (span_pos _ K1) as S2. pose proof (span_pos _ K2) as S3.
  assert (Sf : span_fields fs = span_fields pre + (span_fields [f] + span_fields post)) by (rewrite Ef, span_app; change (f :: post) with ([f] ++ post); now rewrite span_app).
  destruct (Lo pre Kp ltac:(lia)) as (rp & kp & vp & P1 & P2 & Np). rewrite P2 in P. injection P as -> _ Ea. specialize (Np tt eq_refl).
  destruct (Lo (pre ++ [f])) as (rq & kq & vq & Q1 & Q2 & _); [apply Forall_app; now split|rewrite span_app; lia|]. rewrite Q2 in Q. injection Q as -> _ _.
  assert (Nn : names_of fs = names_of pre ++ names_of (f :: post)) by (rewrite Ef; apply flat_map_app).
  rewrite Nn in Nd. pose proof (nodup_app_l _ _ Nd) as Ndp.
  set (o := mkLobj [] [(0%nat, (data, c))]). set (E := set_all vp (new_attrs [FGroup pre] [])). set (o1 := mkLobj (set_all vals []) []).
  assert (I : instantiate h cls cctx 0 fs o = (Err e, o1)) by (unfold instantiate, o; cbn [lo_data pending Nat.eqb lo_attrs]; now rewrite V2).
  assert (Same : forall n, lookup (set_all vals []) n = lookup E n).
  { intros n. rewrite <- Ea. unfold E. destruct (in_dec String.string_dec n (map fst vp)) as [Hn|Hn].
    - pose proof Hn as Hn'. apply in_map_iff in Hn' as ([m v] & <- & Hv). cbn [fst]. rewrite <- Np in Ndp. now rewrite !(set_all_in vp Ndp _ m v Hv).
    - rewrite !set_all_other by exact Hn. rewrite fresh_lookup; [reflexivity|exact Kp|]. now rewrite <- Np. }
  assert (Has : forall n, In n (names_of pre) -> lookup E n <> None).
  { intros n Hn. rewrite <- Np in Hn. apply in_map_iff in Hn as ([m v] & <- & Hv). unfold E. cbn [fst]. rewrite <- Np in Ndp. rewrite (set_all_in vp Ndp _ m v Hv). discriminate. }
  assert (Not : forall n, In n (names_of (f :: post)) -> lookup E n = None).
  { intros n Hn. rewrite <- Same, <- Ea. apply set_all_other. rewrite Np. intros Hp. exact (apart _ _ Nd n Hp Hn). }
  exists o, (consume (Nat.min (Z.to_nat size) (List.length (rest s))) s), pre, f, post, E, (consume kp s).
  split. { unfold lazy_read. cbn [read_items]. unfold sbind, read_item. cbn [fst snd]. rewrite Ks, sread_ok by (auto; lia). rewrite new_empty by exact Kf. reflexivity. }
  split; [exact Ef|].
  split. { rewrite read_struct, read_fields_cons. unfold sbind. rewrite read_group, P1. reflexivity. }
  split. { rewrite read_struct, read_fields_cons. unfold sbind. rewrite read_group, Q1. reflexivity. }
  assert (U : exists x, use_lazy h cls cctx [ILazy fs] u o = (x, o1) /\ raised e x).
  { destruct u as [n|n v|]; cbn [use_lazy needs] in *.
    - unfold lazy_get. rewrite (owner_one fs Kf n Hu). unfold sbind. rewrite I. eexists. split; reflexivity.
    - unfold lazy_set. rewrite (owner_one fs Kf n Hu). unfold sbind. rewrite I. eexists. split; reflexivity.
    - unfold lazy_to_bytes. cbn [write_items]. unfold sbind, write_item. cbn [fst snd]. rewrite I. eexists. split; reflexivity. }
  destruct U as (x & U & Rx). exists x, o1. split; [exact U|]. split; [exact Rx|].
  assert (In1 : forall n, In n (names_of pre) -> In n (names_of fs)) by (intros n Hn; rewrite Nn; apply in_or_app; now left).
  assert (In2 : forall n, In n (names_of (f :: post)) -> In n (names_of fs)) by (intros n Hn; rewrite Nn; apply in_or_app; now right).
  split; [|split; [|split]].
  - intros n Hn. unfold o1. rewrite (get_after h cls cctx fs Kf _ n (In1 n Hn)), Same. destruct (lookup E n) as [v|] eqn:L; [eauto|]. now destruct (Has n Hn).
  - intros n Hn. unfold o1. now rewrite (get_after h cls cctx fs Kf _ n (In2 n Hn)), Same, (Not n Hn).
  - intros n Hn. apply (bytes_after h cls cctx fs Kf _ n (In2 n Hn)). now rewrite Same, (Not n Hn).
  - intros ws us Ew. unfold o1. rewrite (assignments_after h cls cctx fs Kf ws us) by (rewrite Ew; intros n Hn; now apply In2). f_equal.
    apply repaired; [exact Kf|now rewrite Nn| |  |eauto].
    + apply same_assigned. exact Same.
    + intros n Hn. apply assigned_keeps. rewrite Nn, in_app_iff in Hn. rewrite Ew. destruct Hn as [Hn|Hn]; [right; now apply Has|now left].
Qed.

(** ** The rest of the object *)
Lemma set_names h cls cctx c fs data : Forall lazy_field_ok fs -> forall a r sd a', read_fields h cls cctx fs c (stream_of data, a) = (r, (sd, a')) ->
  exists vals, a' = set_all vals a /\ incl (map fst vals) (names_of fs).
Proof.
  intros K a r sd a' E. destruct (stream_of_ok data) as [Od _].
  assert (Lo : forall l, Forall lazy_field_ok l -> exists r k vals, (forall a, read_fields h cls cctx l c (stream_of data, a) = (r, (consume k (stream_of data), set_all vals a)))
     /\ (forall x, r = Ok x -> map fst vals = names_of l)).
  { intros l Kl. destruct (group_local h l (contained_lazy l Kl) cls cctx c c (stream_of data) (stream_of data) Od Od eq_refl) as (q & k & vals & V1 & _ & _ & Ko).
    exists q, k, vals. split; [exact V1|]. intros x Hx. exact (proj2 (Ko x Hx)). }
  destruct r as [[]|e].
  - destruct (Lo fs K) as (q & k & vals & V & N). rewrite V in E. injection E as -> _ <-. exists vals. split; [reflexivity|]. rewrite (N tt eq_refl). apply incl_refl.
  - destruct (fail_split _ _ _ _ _ K _ _ _ _ _ E) as (pre & f & post & sm & -> & P & _). apply Forall_app in K as [Kp _].
    destruct (Lo pre Kp) as (q & k & vals & V & N). rewrite V in P. injection P as -> _ <-. exists vals. split; [reflexivity|]. rewrite (N tt eq_refl).
    unfold names_of. rewrite flat_map_app. now apply incl_appl.
Qed.
Definition apart_from (k : nat) (fs : list field) (o o1 : lobj) : Prop :=
  (forall n, ~ In n (names_of fs) -> lookup (lo_attrs o1) n = lookup (lo_attrs o) n) /\ (forall k', k' <> k -> pending k' (lo_data o1) = pending k' (lo_data o)).
Lemma instantiate_apart h cls cctx k fs o : Forall lazy_field_ok fs -> apart_from k fs o (snd (instantiate h cls cctx k fs o)).
Proof.
  intros K. unfold instantiate. destruct (pending k (lo_data o)) as [[data c]|]; [|split; reflexivity].
  destruct (read_fields h cls cctx fs c (stream_of data, lo_attrs o)) as [r [sd a']] eqn:E. destruct (set_names h cls cctx c fs data K _ _ _ _ E) as (vals & -> & I).
  split; cbn [snd lo_attrs lo_data].
  - intros n Hn. apply set_all_other. intros Hv. apply Hn, I, Hv.
  - intros k' Nk. rewrite pending_forget. destruct (Nat.eqb_spec k' k); [contradiction|reflexivity].
Qed.
Lemma use_apart h cls cctx items k fs u o : Forall lazy_field_ok fs -> (match u with Get m | Set_ m _ => In m (names_of fs) /\ owner 0 items m = Some (k, fs) | ToBytes => False end) ->
  apart_from k fs o (snd (use_lazy h cls cctx items u o)).
Proof.
  intros K. pose proof (instantiate_apart h cls cctx k fs o K) as [A B]. destruct u as [m|m v|]; [| |easy]; intros [Hm Ow]; cbn [use_lazy].
  - unfold lazy_get. rewrite Ow. unfold sbind. destruct (instantiate h cls cctx k fs o) as [[[]|e] o']; cbn [snd] in *; [|split; [exact A|exact B]].
    cbn [sget slift]. destruct (lookup (lo_attrs o') m); split; [exact A|exact B|exact A|exact B].
  - unfold lazy_set. rewrite Ow. unfold sbind. destruct (instantiate h cls cctx k fs o) as [[[]|e] o']; cbn [snd] in *; [|split; [exact A|exact B]].
    cbn [sget sput snd]. split; cbn [lo_attrs lo_data]; [|exact B]. intros n Hn. rewrite lookup_set_other; [now apply A|]. intros ->. contradiction.
Qed.
Lemma get_apart h cls cctx items k fs o o1 n : Forall lazy_ok items -> nth_error items k = Some (ILazy fs) -> apart_from k fs o o1 -> ~ In n (names_of fs) ->
  fst (lazy_get h cls cctx items n o1) = fst (lazy_get h cls cctx items n o).
Proof.
  intros H Hk [A B] Hn. unfold lazy_get. destruct (owner 0 items n) as [[k' fs']|] eqn:Ow.
  - destruct (owner_some items n H 0 k' fs' Ow) as (_ & Hk' & Hn'). rewrite Nat.sub_0_r in Hk'.
    assert (Nk : k' <> k) by (intros ->; rewrite Hk in Hk'; injection Hk' as <-; contradiction). specialize (B k' Nk).
    assert (K' : Forall lazy_field_ok fs') by exact (proj1 (proj1 (Forall_forall _ _) H _ (nth_error_In _ _ Hk'))).
    unfold sbind, instantiate. rewrite B. destruct (pending k' (lo_data o)) as [[data c]|].
    + destruct (stream_of_ok data) as [Od _].
      destruct (group_local h fs' (contained_lazy fs' K') cls cctx c c (stream_of data) (stream_of data) Od Od eq_refl) as (q & j & vals & V & _ & _ & Ko). rewrite !V.
      destruct q as [[]|e]; [|reflexivity]. cbn [sget slift lo_attrs]. destruct (Ko tt eq_refl) as [_ Nv].
      assert (X : lookup (set_all vals (lo_attrs o1)) n = lookup (set_all vals (lo_attrs o)) n); [|rewrite X; now destruct (lookup _ n)].
      assert (G : forall a b, lookup a n = lookup b n -> lookup (set_all vals a) n = lookup (set_all vals b) n).
      { clear. induction vals as [|[m v] vals IH]; intros a b E; [exact E|]. change (set_all ((m, v) :: vals) a) with (set_all vals (set_attr a m v)).
        change (set_all ((m, v) :: vals) b) with (set_all vals (set_attr b m v)). apply IH.
        destruct (String.string_dec m n) as [->|N]; [now rewrite !lookup_set_same|]. now rewrite !lookup_set_other. }
      now apply G, A.
    + cbn [sget slift]. rewrite (A n Hn). now destruct (lookup _ n).
  - unfold sbind. cbn [sget slift]. rewrite (A n Hn). now destruct (lookup _ n).
Qed.
Lemma others_same h cls cctx items fs u o n : Forall (item_ok h) items -> NoDup (flat_map item_names items) -> In (ILazy fs) items -> u <> ToBytes -> needs fs u ->
  ~ In n (names_of fs) -> fst (lazy_get h cls cctx items n (snd (use_lazy h cls cctx items u o))) = fst (lazy_get h cls cctx items n o).
Proof.
  intros H Nd Hi Nu Hu Hn. pose proof (ok_lazy h items H) as Hl. destruct (In_nth_error _ _ Hi) as [k Hk].
  assert (Ow : forall m, In m (names_of fs) -> owner 0 items m = Some (k, fs)).
  { intros m Hm. destruct (owner 0 items m) as [[k' fs']|] eqn:Ow.
    - destruct (owner_some items m Hl 0 k' fs' Ow) as (_ & Hk' & Hm'). rewrite Nat.sub_0_r in Hk'.
      pose proof (group_unique items Nd k k' fs fs' m Hk Hk' Hm Hm') as <-. rewrite Hk in Hk'. now injection Hk' as <-.
    - exfalso. apply (owner_none items m Hl 0 Ow). apply in_flat_map. exists (ILazy fs). split; [exact Hi|exact Hm]. }
  assert (K : Forall lazy_field_ok fs) by exact (proj1 (proj1 (Forall_forall _ _) Hl _ Hi)).
  apply (get_apart h cls cctx items k fs); [exact Hl|exact Hk| |exact Hn]. apply use_apart; [exact K|]. destruct u as [m|m v|]; cbn [needs] in Hu; auto.
Qed.

(** ** Values stay *)
Lemma set_all_same n vals : forall a b, lookup a n = lookup b n -> lookup (set_all vals a) n = lookup (set_all vals b) n.
Proof.
  induction vals as [|[m v] vals IH]; intros a b E; [exact E|]. change (set_all ((m, v) :: vals) a) with (set_all vals (set_attr a m v)).
  change (set_all ((m, v) :: vals) b) with (set_all vals (set_attr b m v)). apply IH.
  destruct (String.string_dec m n) as [->|N]; [now rewrite !lookup_set_same|]. now rewrite !lookup_set_other.
Qed.
Lemma get_same h cls cctx items o o1 n : Forall lazy_ok items -> lookup (lo_attrs o1) n = lookup (lo_attrs o) n ->
  (forall k fs, owner 0 items n = Some (k, fs) -> pending k (lo_data o1) = pending k (lo_data o)) ->
  fst (lazy_get h cls cctx items n o1) = fst (lazy_get h cls cctx items n o).
Proof.
  intros H A B. unfold lazy_get. destruct (owner 0 items n) as [[k fs]|] eqn:Ow.
  - destruct (owner_some items n H 0 k fs Ow) as (_ & Hk & _). specialize (B k fs eq_refl).
    assert (K : Forall lazy_field_ok fs) by exact (proj1 (proj1 (Forall_forall _ _) H _ (nth_error_In _ _ Hk))).
    unfold sbind, instantiate. rewrite B. destruct (pending k (lo_data o)) as [[data c]|].
    + destruct (stream_of_ok data) as [Od _].
      destruct (group_local h fs (contained_lazy fs K) cls cctx c c (stream_of data) (stream_of data) Od Od eq_refl) as (q & j & vals & V & _ & _ & _). rewrite !V.
      destruct q as [[]|e]; [|reflexivity]. cbn [sget slift lo_attrs]. rewrite (set_all_same n vals _ _ A). now destruct (lookup _ n).
    + cbn [sget slift]. rewrite A. now destruct (lookup _ n).
  - unfold sbind. cbn [sget slift]. rewrite A. now destruct (lookup _ n).
Qed.
Section Stay.
Variables (h : host) (cls : name) (cctx : option ctx) (items : list item).
Hypothesis H : Forall lazy_ok items.
Hypothesis Nd : NoDup (flat_map item_names items).
Definition shows_value (n : name) (v : value) (o : lobj) : Prop := fst (lazy_get h cls cctx items n o) = Ok v.
Lemma instantiate_stays k fs n v o : nth_error items k = Some (ILazy fs) -> shows_value n v o -> shows_value n v (snd (instantiate h cls cctx k fs o)).
Proof.
  intros Hk G. assert (K : Forall lazy_field_ok fs) by exact (proj1 (proj1 (Forall_forall _ _) H _ (nth_error_In _ _ Hk))).
  destruct (in_dec String.string_dec n (names_of fs)) as [Hn|Hn].
  - assert (Ow : owner 0 items n = Some (k, fs)).
    { destruct (owner 0 items n) as [[k' fs']|] eqn:Ow.
      - destruct (owner_some items n H 0 k' fs' Ow) as (_ & Hk' & Hn'). rewrite Nat.sub_0_r in Hk'.
        pose proof (group_unique items Nd k k' fs fs' n Hk Hk' Hn Hn') as <-. rewrite Hk in Hk'. now injection Hk' as <-.
      - exfalso. apply (owner_none items n H 0 Ow). apply in_flat_map. exists (ILazy fs). split; [eapply nth_error_In; exact Hk|exact Hn]. }
    revert G. unfold shows_value, lazy_get. rewrite Ow. unfold sbind. unfold instantiate at 1 3.
    destruct (pending k (lo_data o)) as [[data c]|] eqn:P.
    + destruct (read_fields h cls cctx fs c (stream_of data, lo_attrs o)) as [[[]|e] [sd a']]; [|discriminate]. cbn [snd].
      unfold instantiate. cbn [lo_data]. rewrite pending_forget, Nat.eqb_refl. tauto.
    + cbn [snd]. unfold instantiate. rewrite P. tauto.
  - unfold shows_value. rewrite (get_apart h cls cctx items k fs o); [exact G|exact H|exact Hk|now apply instantiate_apart|exact Hn].
Qed.
Lemma write_stays n v : forall l j o out, skipn j items = l -> shows_value n v o -> shows_value n v (fst (snd (write_items h cls cctx j l (o, out)))).
Proof.
  induction l as [|i l IH]; intros j o out El G; [exact G|]. destruct (skipn_nth _ _ _ _ El) as [Hi El']. cbn [write_items]. unfold sbind, write_item at 1. cbn [fst snd].
  destruct i as [f|fs].
  - destruct (write_field h f (lo_attrs o) out) as [[u|e] out1]; [|exact G]. now apply (IH (S j)).
  - pose proof (instantiate_stays j fs n v o Hi G) as G'. destruct (instantiate h cls cctx j fs o) as [[u|e] o']; cbn [snd] in G'; [|exact G'].
    destruct (write_lazy_fields h fs (lo_attrs o') out) as [[u'|e] out1]; [|exact G']. now apply (IH (S j)).
Qed.
Lemma use_stays u n v o : (forall w, u <> Set_ n w) -> shows_value n v o -> shows_value n v (snd (use_lazy h cls cctx items u o)).
Proof.
  intros Nu G. destruct u as [m|m w|]; cbn [use_lazy].
  - unfold lazy_get. destruct (owner 0 items m) as [[k fs]|] eqn:Ow.
    + destruct (owner_some items m H 0 k fs Ow) as (_ & Hk & _). rewrite Nat.sub_0_r in Hk. pose proof (instantiate_stays k fs n v o Hk G) as G'.
      unfold sbind. destruct (instantiate h cls cctx k fs o) as [[u|e] o']; cbn [snd] in G'; [|exact G']. cbn [sget slift]. destruct (lookup (lo_attrs o') m); exact G'.
    + unfold sbind. cbn [sget slift]. destruct (lookup (lo_attrs o) m); exact G.
  - assert (Nm : m <> n) by (intros ->; now apply (Nu w)). unfold lazy_set. destruct (owner 0 items m) as [[k fs]|] eqn:Ow.
    + destruct (owner_some items m H 0 k fs Ow) as (_ & Hk & _). rewrite Nat.sub_0_r in Hk. pose proof (instantiate_stays k fs n v o Hk G) as G'.
      unfold sbind. destruct (instantiate h cls cctx k fs o) as [[u|e] o']; cbn [snd] in G'; [|exact G']. cbn [sget sput snd].
      unfold shows_value. rewrite (get_same h cls cctx items o'); [exact G'|exact H|cbn [lo_attrs]; now apply lookup_set_other|reflexivity].
    + unfold sbind. cbn [sget]. destruct (lookup (flat_map item_class_attrs items) m) as [c|].
      * destruct (py_eq w c); exact G.
      * cbn [sput snd]. unfold shows_value. rewrite (get_same h cls cctx items o); [exact G|exact H|cbn [lo_attrs]; now apply lookup_set_other|reflexivity].
  - unfold lazy_to_bytes. pose proof (write_stays n v items 0 o [] eq_refl G) as W. destruct (write_items h cls cctx 0 items (o, [])) as [[u|e] [o' out]]; exact W.
Qed.
Lemma history_stays n v us : (forall w, ~ In (Set_ n w) us) -> forall o, shows_value n v o ->
  forall x, In (Get n, x) (combine us (history_lazy h cls cctx items us o)) -> x = AValue (Ok v).
Proof.
  induction us as [|u us IH]; intros Nu o G x; [easy|]. cbn [history_lazy].
  assert (G' : shows_value n v (snd (use_lazy h cls cctx items u o))) by (apply use_stays; [intros w ->; apply (Nu w); now left|exact G]).
  destruct (use_lazy h cls cctx items u o) as [y o'] eqn:U. cbn [combine In snd] in *. intros [E|E].
  - injection E as -> <-. cbn [use_lazy] in U. unfold shows_value in G. destruct (lazy_get h cls cctx items n o) as [r o2]. cbn [fst] in G. subst r. now injection U as <- _.
  - apply (IH (fun w Hw => Nu w (or_intror Hw)) o' G' x E).
Qed.
End Stay.
Lemma value_stays h cls cctx items o n v us : Forall (item_ok h) items -> NoDup (flat_map item_names items) ->
  fst (lazy_get h cls cctx items n o) = Ok v -> (forall w, ~ In (Set_ n w) us) ->
  forall x, In (Get n, x) (combine us (history_lazy h cls cctx items us o)) -> x = AValue (Ok v).
Proof. intros K Nd G Nu. exact (history_stays h cls cctx items (ok_lazy h items K) Nd n v us Nu o G). Qed.

(** ** Reading *)
Lemma read_any h cls cctx c : forall groups sizes, Forall (Forall lazy_field_ok) groups -> Forall2 (fun fs n => lazy_size fs = Ok n /\ n <= maxsize) groups sizes ->
  forall j s o, stream_ok s -> exists o' s', read_items h cls cctx c j (map ILazy groups) (s, o) = (Ok tt, (s', o'))
    /\ rest s' = skipn (Z.to_nat (fold_right Z.add 0 sizes)) (rest s) /\ 0 <= fold_right Z.add 0 sizes.
Proof.
  intros groups sizes K F. induction F as [|fs n groups sizes [Hs Hn] F IH]; intros j s o O.
  - exists o, s. cbn. split; [reflexivity|]. split; [reflexivity|lia].
  - inversion K as [|? ? K1 K2]; subst. pose proof (span_pos fs K1) as N0. rewrite <- (lazy_size_span fs (contained_lazy fs K1) n Hs) in N0.
    cbn [map read_items]. unfold sbind, read_item. cbn [fst snd]. rewrite Hs, sread_ok by (auto; lia).
    set (i := Nat.min (Z.to_nat n) (List.length (rest s))).
    assert (O1 : stream_ok (consume i s)) by (apply consume_ok; [exact O|unfold i; lia]).
    edestruct (IH K2 (S j) (consume i s)) as (o' & s' & R & S' & P); [exact O1|]. exists o', s'. split; [exact R|]. cbn [fold_right]. split; [|lia].
    rewrite S', rest_consume by exact O. rewrite skipn_skipn'. rewrite Z2Nat.inj_add by lia. unfold i.
    destruct (Nat.le_gt_cases (Z.to_nat n) (List.length (rest s))) as [L|L]; [now rewrite Nat.min_l by exact L|].
    rewrite Nat.min_r by lia. rewrite !skipn_all2 by lia. reflexivity.
Qed.
Lemma short_input h cls cctx c groups sizes s : Forall (Forall lazy_field_ok) groups -> Forall2 (fun fs n => lazy_size fs = Ok n /\ n <= maxsize) groups sizes ->
  stream_ok s -> exists o s', lazy_read h cls cctx (map ILazy groups) c s = (Ok o, s') /\ rest s' = skipn (Z.to_nat (fold_right Z.add 0 sizes)) (rest s).
Proof.
  intros K F O. destruct (read_any h cls cctx c groups sizes K F 0 s (lazy_new (map ILazy groups) []) O) as (o' & s' & R & S' & _).
  exists o', s'. unfold lazy_read. now rewrite R.
Qed.

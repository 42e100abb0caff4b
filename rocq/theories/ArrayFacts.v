(** Facts behind the properties of arrays, maps, pointers and selectors (C22-C24, C26-C28). *)
From Verif Require Import Base BaseProofs IntCodec CodecSpec IntCodecProofs FloatProofs
  BitStringIO Stream StreamSpec StreamProofs MinMax Marshal BitFieldSpec BitFieldProofs
  MarshalSpec MarshalInd MarshalRT NumericFacts WriteFacts SizeSpec SizeFacts SimSpec SimFacts
  FieldSpec MarshalFacts FieldFacts.
From Coq Require Import ZArith List Bool String Lia ZifyBool ZifyNat.
Import ListNotations.
Open Scope string_scope.
Open Scope list_scope.
Open Scope Z_scope.
Ltac Zify.zify_post_hook ::= Z.div_mod_to_equations.

(** ** Arrays *)
Lemma mid_assoc pre e t : SBytesIO (pre ++ e ++ t) (zlen pre + zlen e) = SBytesIO ((pre ++ e) ++ t) (zlen (pre ++ e)).
Proof. now rewrite zlen_app, <- app_assoc. Qed.

Lemma elements_write h el c l encs : Forall2 (roundtrips h el c) l encs ->
  forall out, sforeach l (write h el) out = (Ok tt, out ++ List.concat encs).
Proof.
  induction 1 as [|x e l encs [W _] _ IH]; intros out; cbn; [now rewrite app_nil_r|].
  unfold sbind. now rewrite W, IH, app_assoc.
Qed.

Lemma stM_loop_S {S A} n (m : stM S A) :
  stM_loop (Datatypes.S n) m = (x <- m ;; r <- stM_loop n m ;; sret (x :: r)).
Proof. reflexivity. Qed.

Lemma elements_read h el c l encs : Forall2 (roundtrips h el c) l encs ->
  forall pre tail, stM_loop (List.length l) (read h el c) (SBytesIO (pre ++ List.concat encs ++ tail) (zlen pre))
    = (Ok l, SBytesIO (pre ++ List.concat encs ++ tail) (zlen pre + zlen (List.concat encs))).
Proof.
  induction 1 as [|x e l encs [_ Rd] _ IH]; intros pre tail; cbn [List.concat List.length].
  - rewrite zlen_nil, Z.add_0_r. reflexivity.
  - rewrite stM_loop_S. unfold sbind. rewrite <- app_assoc, Rd. rewrite mid_assoc.
    rewrite IH. unfold sret. rewrite !zlen_app, <- !app_assoc. do 2 f_equal. lia.
Qed.

Lemma var_array h sz el c l encs encn :
  Forall2 (roundtrips h el c) l encs -> roundtrips h sz c (VInt (zlen l)) encn ->
  roundtrips h (MVarArr sz el) c (VList l) (encn ++ List.concat encs).
Proof.
  intros F [Wn Rn]. split.
  - intros out. cbn [write]. unfold sbind, slift. cbn [py_len py_iter]. rewrite Wn.
    rewrite (elements_write _ _ _ _ _ F). now rewrite app_assoc.
  - intros pre tail. cbn [read]. unfold sbind, slift. rewrite <- app_assoc, Rn. cbn [as_int].
    rewrite mid_assoc.
    replace (Z.to_nat (zlen l)) with (List.length l) by (unfold zlen; lia).
    rewrite (elements_read _ _ _ _ _ F). unfold sret. rewrite !zlen_app, <- !app_assoc. do 2 f_equal. lia.
Qed.

Lemma fix_array h n el c l encs :
  Forall2 (roundtrips h el c) l encs -> zlen l = n ->
  roundtrips h (MFixArr n el) c (VList l) (List.concat encs).
Proof.
  intros F L. split.
  - intros out. cbn [write]. unfold sbind, slift. cbn [py_len py_iter].
    now rewrite (elements_write _ _ _ _ _ F).
  - intros pre tail. cbn [read]. unfold sbind.
    replace (Z.to_nat n) with (List.length l) by (unfold zlen in *; lia).
    rewrite (elements_read _ _ _ _ _ F). reflexivity.
Qed.

Lemma fix_array_unchecked h n el c l encs out :
  Forall2 (roundtrips h el c) l encs ->
  write h (MFixArr n el) (VList l) out = (Ok tt, out ++ List.concat encs).
Proof.
  intros F. cbn [write]. unfold sbind, slift. cbn [py_len py_iter].
  now rewrite (elements_write _ _ _ _ _ F).
Qed.

(** ** The loop of byte-count arrays *)
Definition plain (s : stream) : Prop := has_tell s = true.

Lemma sum_loop_iter rd fuel : (forall s v s', plain s -> rd s = (Ok v, s') -> plain s' /\ tell_of s < tell_of s') ->
  forall total s acc, plain s -> total <= Z.of_nat fuel ->
  exists r s', sum_iter fuel rd total s acc = Some (r, s')
    /\ sum_loop fuel rd total s = (match r with Ok l => Ok (skipn (List.length acc) l) | Err e => Err e end, s')
    /\ (forall l, r = Ok l -> exists l', l = acc ++ l').
Proof.
  intros P. induction fuel as [|fuel IH]; intros total s acc Pl L; cbn [sum_iter sum_loop].
  - destruct (total >? 0) eqn:G; [lia|]. unfold sbind, slift, passert.
    destruct (total =? 0); eexists _, _; (split; [reflexivity|]); cbn; split; auto.
    + now rewrite skipn_all.
    + intros l E. injection E as <-. exists []. now rewrite app_nil_r.
    + discriminate.
  - destruct (total >? 0) eqn:G.
    + unfold sbind at 1, sget at 1. destruct (rd s) as [[v|e] s1] eqn:R.
      * destruct (P _ _ _ Pl R) as [P1 T]. unfold sbind at 1. rewrite R.
        unfold sbind at 1, sget.
        destruct s as [d p|]; [|discriminate Pl]. destruct s1 as [d1 p1|]; [|discriminate P1].
        cbn [tell_of stell] in *. replace (p1 - p =? 0) with false by lia.
        destruct (IH (total - (p1 - p)) (SBytesIO d1 p1) (acc ++ [v]) P1 ltac:(lia)) as (r & s' & E1 & E2 & E3).
        exists r, s'. split; [exact E1|]. unfold sbind. rewrite E2. destruct r as [l|e].
        -- destruct (E3 l eq_refl) as (l' & ->). split.
           ++ unfold sret. rewrite <- app_assoc. cbn [app].
              replace (skipn (List.length (acc ++ [v])) (acc ++ v :: l')) with l'.
              ** now rewrite skipn_app, skipn_all, Nat.sub_diag.
              ** rewrite app_length. cbn [List.length]. rewrite skipn_app, skipn_all2 by lia.
                 now replace (List.length acc + 1 - List.length acc)%nat with 1%nat by lia.
           ++ intros l E. injection E as <-. rewrite <- app_assoc. exists ([v] ++ l'). reflexivity.
        -- split; [reflexivity|discriminate].
      * exists (Err e), s1. split; [reflexivity|]. unfold sbind. rewrite R. split; [reflexivity|discriminate].
    + unfold sbind, slift, passert.
      destruct (total =? 0); eexists _, _; (split; [reflexivity|]); cbn; split; auto.
      * now rewrite skipn_all.
      * intros l E. injection E as <-. exists []. now rewrite app_nil_r.
      * discriminate.
Qed.

Lemma sum_array_terminates h sz el c s total s1 :
  (forall s v s', plain s -> read h el c s = (Ok v, s') -> plain s' /\ tell_of s < tell_of s') ->
  read h sz c s = (Ok (VInt total), s1) -> plain s1 ->
  exists r s', sum_iter (Z.to_nat total) (read h el c) total s1 [] = Some (r, s')
    /\ read h (MSumArr sz el) c s = (match r with Ok l => Ok (VList l) | Err e => Err e end, s').
Proof.
  intros P R Pl. cbn [read]. unfold sbind at 1. rewrite R. unfold sbind at 1, slift. cbn [as_int].
  destruct (sum_loop_iter (read h el c) (Z.to_nat total) P total s1 [] Pl ltac:(lia)) as (r & s' & E1 & E2 & E3).
  exists r, s'. split; [exact E1|]. unfold sbind. rewrite E2. now destruct r.
Qed.

Lemma sum_iter_stuck rd total s v : total > 0 -> rd s = (Ok v, s) ->
  forall fuel acc, sum_iter fuel rd total s acc = None.
Proof.
  intros G R. induction fuel as [|fuel IH]; intros acc; cbn [sum_iter]; (replace (total >? 0) with true by lia); auto.
  rewrite R. rewrite Z.sub_diag, Z.sub_0_r. apply IH.
Qed.

Lemma sum_iter_never rd n : forall total s total' s' v,
  after_iterations n rd total s = Some (total', s') -> total' > 0 -> rd s' = (Ok v, s') ->
  forall fuel acc, sum_iter fuel rd total s acc = None.
Proof.
  induction n as [|n IH]; intros total s total' s' v A G R fuel acc; cbn [after_iterations] in A.
  - injection A as -> ->. eapply sum_iter_stuck; eauto.
  - destruct (total >? 0) eqn:Gt; [|discriminate]. destruct (rd s) as [[w|e] s1] eqn:R1; [|discriminate].
    destruct fuel as [|fuel]; cbn [sum_iter]; rewrite Gt; auto. rewrite R1.
    eapply IH; eauto.
Qed.

(** What the model reports for such a loop. *)
Lemma sum_loop_stuck rd total s v fuel : total > 0 -> plain s -> rd s = (Ok v, s) ->
  sum_loop fuel rd total s = (Err Diverges, s).
Proof.
  intros G P R. destruct fuel; cbn [sum_loop]; (replace (total >? 0) with true by lia); [reflexivity|].
  unfold sbind, sget. rewrite R. destruct s; [|discriminate P]. cbn [stell]. now rewrite Z.sub_diag.
Qed.

Lemma elements_sum_loop h el c l encs : Forall2 (roundtrips h el c) l encs ->
  Forall (fun e => 0 < zlen e) encs ->
  forall pre tail fuel, zlen (List.concat encs) <= Z.of_nat fuel ->
  sum_loop fuel (read h el c) (zlen (List.concat encs)) (SBytesIO (pre ++ List.concat encs ++ tail) (zlen pre))
  = (Ok l, SBytesIO (pre ++ List.concat encs ++ tail) (zlen pre + zlen (List.concat encs))).
Proof.
  induction 1 as [|x e l encs [_ Rd] F IH]; intros P pre tail fuel L; cbn [List.concat] in *.
  - rewrite zlen_nil, Z.add_0_r. destruct fuel; reflexivity.
  - inversion P as [|? ? He Pe]; subst. rewrite zlen_app in *. pose proof (zlen_nonneg (List.concat encs)).
    destruct fuel as [|fuel]; [lia|]. cbn [sum_loop].
    replace (zlen e + zlen (List.concat encs) >? 0) with true by lia.
    unfold sbind at 1, sget at 1. rewrite <- app_assoc. unfold sbind at 1. rewrite Rd.
    unfold sbind at 1, sget at 1. cbn [stell].
    replace (zlen pre + zlen e - zlen pre) with (zlen e) by lia.
    replace (zlen e =? 0) with false by lia. rewrite mid_assoc.
    replace (zlen e + zlen (List.concat encs) - zlen e) with (zlen (List.concat encs)) by lia.
    unfold sbind. rewrite IH by (auto; lia). unfold sret. rewrite !zlen_app, <- !app_assoc. do 2 f_equal. lia.
Qed.

Lemma sum_sizes el l (encs : list (list Z)) : Forall2 (fun x e => sizeof el x = Ok (zlen e)) l encs ->
  rmap_list (sizeof el) l = Ok (map zlen encs).
Proof. induction 1 as [|x e l encs E _ IH]; cbn; auto. now rewrite E, IH. Qed.

Lemma sum_array h sz el c l encs encn :
  Forall2 (roundtrips h el c) l encs -> Forall (fun e => 0 < zlen e) encs ->
  Forall2 (fun x e => sizeof el x = Ok (zlen e)) l encs ->
  roundtrips h sz c (VInt (zlen (List.concat encs))) encn ->
  roundtrips h (MSumArr sz el) c (VList l) (encn ++ List.concat encs).
Proof.
  intros F P S [Wn Rn]. split.
  - intros out. cbn [write]. unfold sbind, slift. cbn [py_iter]. rewrite (sum_sizes _ _ _ S), zlen_concat, Wn.
    rewrite (elements_write _ _ _ _ _ F). now rewrite app_assoc.
  - intros pre tail. cbn [read]. unfold sbind, slift. rewrite <- app_assoc, Rn. cbn [as_int].
    rewrite mid_assoc. rewrite (elements_sum_loop _ _ _ _ _ F P) by (pose proof (zlen_nonneg (List.concat encs)); lia).
    unfold sret. rewrite !zlen_app, <- !app_assoc. do 2 f_equal. lia.
Qed.

(** ** Maps *)
Lemma mk_map_inv tbl m m' : mk_map tbl m = Ok m' -> m' = MMap tbl m /\ injective_map [] tbl = Ok tt.
Proof.
  unfold mk_map. destruct (min_max m) as [mm|]; [|discriminate]. cbn [rbind].
  destruct (passert (mm_is_fixed mm)); [|discriminate]. cbn [rbind].
  destruct (injective_map [] tbl) as [[]|]; [|discriminate]. cbn. intros E. injection E as <-. auto.
Qed.

Lemma injective_hashable tbl : forall seen, injective_map seen tbl = Ok tt -> forall k w, In (k, w) tbl -> hashable w = true.
Proof.
  induction tbl as [|[k v] r IH]; intros seen H k' w I; [destruct I|]. cbn [injective_map] in H.
  destruct (hashable v) eqn:Hv; [|discriminate]. cbn [negb] in H.
  destruct (passert _) as [[]|]; [|discriminate]. cbn [rbind] in H.
  destruct I as [I|I]; [injection I as -> ->; auto|eauto].
Qed.

Lemma injective_seen tbl : forall seen, injective_map seen tbl = Ok tt -> forall s k w, In s seen -> In (k, w) tbl -> py_eq s w = false.
Proof.
  induction tbl as [|[k v] r IH]; intros seen H s k' w S I; [destruct I|]. cbn [injective_map] in H.
  destruct (hashable v); [|discriminate]. cbn [negb] in H.
  destruct (existsb (fun w => py_eq w v) seen) eqn:E; [discriminate|]. cbn [negb passert rbind] in H.
  destruct I as [I|I].
  - injection I as -> ->. destruct (py_eq s w) eqn:Q; auto.
    assert (X : existsb (fun w0 => py_eq w0 w) seen = true) by (apply existsb_exists; eauto). congruence.
  - apply (IH _ H s k' w); auto. right. auto.
Qed.

Lemma injective_reverse tbl : forall seen k w, injective_map seen tbl = Ok tt -> In (k, w) tbl -> py_eq w w = true ->
  find (fun p => py_eq (fst p) w) (map (fun p => (snd p, fst p)) tbl) = Some (w, k).
Proof.
  induction tbl as [|[k0 v] r IH]; intros seen k w H I W; [destruct I|]. cbn [map find fst snd].
  assert (H0 := H). cbn [injective_map] in H.
  destruct (hashable v); [|discriminate]. cbn [negb] in H.
  destruct (passert _) as [[]|]; [|discriminate]. cbn [rbind] in H.
  destruct I as [I|I].
  - injection I as -> ->. now rewrite W.
  - rewrite (injective_seen _ _ H v k w (or_introl eq_refl) I). eapply IH; eauto.
Qed.

(** The keys of a dict: pairwise different, and each found by its own value. *)
Definition dict_ok (tbl : list (value * value)) : Prop :=
  ForallOrdPairs (fun p q => py_eq (fst p) (fst q) = false) tbl
  /\ Forall (fun p => hashable (fst p) = true /\ py_eq (fst p) (fst p) = true) tbl.

Lemma dict_get_in tbl k w : dict_ok tbl -> In (k, w) tbl -> dict_get tbl k = Ok w.
Proof.
  intros [O F] I. unfold dict_get.
  pose proof (proj1 (Forall_forall _ _) F _ I) as [Hk Ek]. cbn [fst] in *. rewrite Hk.
  assert (E : find (fun p => py_eq (fst p) k) tbl = Some (k, w)).
  { clear F. induction O as [|p r Fp _ IH]; [destruct I|]. cbn [find]. destruct I as [->|I].
    - cbn [fst]. now rewrite Ek.
    - pose proof (proj1 (Forall_forall _ _) Fp _ I) as X. cbn [fst] in X. rewrite X. auto. }
  now rewrite E.
Qed.

Lemma map_roundtrip h tbl m mm c k w enc : mk_map tbl m = Ok mm -> dict_ok tbl -> In (k, w) tbl ->
  py_eq w w = true -> roundtrips h m c w enc -> roundtrips h mm c k enc.
Proof.
  intros M D I W [Wr Rd]. apply mk_map_inv in M as [-> Inj]. split.
  - intros out. cbn [write]. unfold sbind, slift. rewrite (dict_get_in _ _ _ D I). apply Wr.
  - intros pre tail. cbn [read]. unfold sbind, slift. rewrite Rd.
    unfold map_reverse, dict_get. rewrite (injective_hashable _ _ Inj _ _ I).
    now rewrite (injective_reverse _ _ _ _ Inj I W).
Qed.

Lemma map_unknown_key h tbl m k out : hashable k = true -> (forall k' w, In (k', w) tbl -> py_eq k' k = false) ->
  write h (MMap tbl m) k out = (Err KeyError, out).
Proof.
  intros Hk N. cbn [write]. unfold sbind, slift, dict_get. rewrite Hk.
  destruct (find _ tbl) as [[k' w]|] eqn:F; [|reflexivity].
  apply find_some in F as [I E]. cbn [fst] in E. rewrite (N _ _ I) in E. discriminate.
Qed.

Lemma map_unknown_value h tbl m c s v s' : read h m c s = (Ok v, s') -> hashable v = true ->
  (forall k w, In (k, w) tbl -> py_eq w v = false) ->
  read h (MMap tbl m) c s = (Err KeyError, s').
Proof.
  intros R Hv N. cbn [read]. unfold sbind, slift. rewrite R. unfold map_reverse, dict_get. rewrite Hv.
  destruct (find _ _) as [[w k]|] eqn:F; [|reflexivity].
  apply find_some in F as [I E]. cbn [fst] in E. apply in_map_iff in I as ((k' & w') & Q & I).
  cbn in Q. injection Q as -> ->. rewrite (N _ _ I) in E. discriminate.
Qed.

Lemma injective_map_clash l1 k1 w1 l2 k2 w2 l3 seen : py_eq w1 w2 = true ->
  (forall k w, In (k, w) (l1 ++ (k1, w1) :: l2 ++ (k2, w2) :: l3) -> hashable w = true) ->
  injective_map seen (l1 ++ (k1, w1) :: l2 ++ (k2, w2) :: l3) = Err AssertionError.
Proof.
  intros E H.
  assert (G2 : forall l seen, In w1 seen -> (forall k w, In (k, w) (l ++ (k2, w2) :: l3) -> hashable w = true) ->
    injective_map seen (l ++ (k2, w2) :: l3) = Err AssertionError).
  { induction l as [|[k w] l IH]; intros sn I Hh; cbn [app injective_map].
    - rewrite (Hh k2 w2) by (left; reflexivity). cbn [negb].
      assert (X : existsb (fun w => py_eq w w2) sn = true) by (apply existsb_exists; eauto).
      rewrite X. reflexivity.
    - rewrite (Hh k w) by (left; reflexivity). cbn [negb]. destruct (existsb _ sn); cbn [negb passert rbind]; [reflexivity|].
      apply IH; [right; auto|]. intros k' w' I'. apply (Hh k' w'). right. auto. }
  revert seen H. induction l1 as [|[k w] l1 IH]; intros seen H; cbn [app injective_map].
  - rewrite (H k1 w1) by (left; reflexivity). cbn [negb]. destruct (existsb _ seen); cbn [negb passert rbind]; [reflexivity|].
    apply G2; [left; auto|]. intros k' w' I'. apply (H k' w'). right. auto.
  - rewrite (H k w) by (left; reflexivity). cbn [negb]. destruct (existsb _ seen); cbn [negb passert rbind]; [reflexivity|].
    apply IH. intros k' w' I'. apply (H k' w'). right. auto.
Qed.

Lemma map_not_injective m mm l1 k1 w1 l2 k2 w2 l3 : min_max m = Ok mm -> mm_is_fixed mm = true ->
  py_eq w1 w2 = true ->
  (forall k w, In (k, w) (l1 ++ (k1, w1) :: l2 ++ (k2, w2) :: l3) -> hashable w = true) ->
  mk_map (l1 ++ (k1, w1) :: l2 ++ (k2, w2) :: l3) m = Err AssertionError.
Proof.
  intros M X E H. unfold mk_map. rewrite M. cbn [rbind]. rewrite X. cbn [passert rbind].
  now rewrite injective_map_clash.
Qed.

(** ** Pointers *)
Lemma read_fields_app h cls cctx c fs1 fs2 : forall st,
  read_fields h cls cctx (fs1 ++ fs2) c st
  = match read_fields h cls cctx fs1 c st with
    | (Ok _, st') => read_fields h cls cctx fs2 c st'
    | (Err e, st') => (Err e, st')
    end.
Proof.
  induction fs1 as [|f fs1 IH]; intros st; [reflexivity|].
  cbn [app]. rewrite !read_fields_cons. unfold sbind.
  destruct (read_field h cls cctx f c st) as [[u|e] st']; auto.
Qed.

Lemma ctx_get_app c c' k : lookup c k <> None -> ctx_get (c ++ c') k = ctx_get c k.
Proof. intros N. unfold ctx_get. rewrite lookup_app. now destruct (lookup c k). Qed.

Lemma nest_pointer h p levels : forall c s v s', lookup c "struct" <> None ->
  read h (nest levels (MPtr p)) c s = (Ok v, s') ->
  getattr_path v (map lv_name levels) = py_getattr (ctx_get c "struct") p
  /\ exists w, py_getattr (ctx_get c "struct") p = Ok w.
Proof.
  induction levels as [|l r IH]; intros c s v s' N E.
  - cbn [nest read] in E. apply slift_inv in E as [E _]. cbn [map getattr_path]. rewrite E. eauto.
  - cbn [nest] in E. rewrite read_struct in E.
    destruct (read_fields h (lv_cls l) (lv_ctx l) _ c _) as [[u|e] [s1 a]] eqn:F; [|discriminate].
    injection E as <- <-. rewrite read_fields_app in F.
    destruct (read_fields h (lv_cls l) (lv_ctx l) (lv_before l) c _) as [[u'|e] [s2 a2]] eqn:F1; [|discriminate].
    rewrite read_fields_cons in F. unfold sbind in F. rewrite read_field_field in F.
    destruct (read h (nest r (MPtr p)) _ s2) as [[w|e] s3] eqn:R; [|discriminate].
    cbn in F. injection F as _ <- <-.
    assert (N' : lookup (get_updated_context (lv_ctx l) (VObj (lv_cls l) a2) c) "struct" <> None).
    { unfold get_updated_context. rewrite lookup_app. destruct (lookup c "struct"); [discriminate|tauto]. }
    destruct (IH _ _ _ _ N' R) as (P & Q).
    unfold get_updated_context in P, Q. rewrite ctx_get_app in P, Q by auto.
    cbn [map getattr_path]. unfold py_getattr at 1. rewrite lookup_set_same. cbn [rbind]. auto.
Qed.

Lemma pointer_outermost h p l levels c s v s' :
  lookup c "struct" = None -> lv_ctx l = None -> p <> lv_name l ->
  read h (nest (l :: levels) (MPtr p)) c s = (Ok v, s') ->
  getattr_path v (lv_name l :: map lv_name levels) = py_getattr v p
  /\ exists w, py_getattr v p = Ok w.
Proof.
  intros N C P E. cbn [nest] in E. rewrite read_struct in E.
  destruct (read_fields h (lv_cls l) (lv_ctx l) _ c _) as [[u|e] [s1 a]] eqn:F; [|discriminate].
  injection E as <- <-. rewrite read_fields_app in F.
  destruct (read_fields h (lv_cls l) (lv_ctx l) (lv_before l) c _) as [[u'|e] [s2 a2]] eqn:F1; [|discriminate].
  rewrite read_fields_cons in F. unfold sbind in F. rewrite read_field_field in F.
  destruct (read h (nest levels (MPtr p)) _ s2) as [[w|e] s3] eqn:R; [|discriminate].
  cbn in F. injection F as _ <- <-.
  assert (G : ctx_get (get_updated_context (lv_ctx l) (VObj (lv_cls l) a2) c) "struct" = VObj (lv_cls l) a2).
  { rewrite C. unfold get_updated_context, ctx_get. rewrite lookup_app, N. reflexivity. }
  assert (N' : lookup (get_updated_context (lv_ctx l) (VObj (lv_cls l) a2) c) "struct" <> None).
  { rewrite C. unfold get_updated_context. rewrite lookup_app, N. discriminate. }
  destruct (nest_pointer h p levels _ _ _ _ N' R) as (Q1 & Q2).
  rewrite G in *. cbn [getattr_path]. unfold py_getattr at 1. rewrite lookup_set_same. cbn [rbind].
  assert (Z : py_getattr (VObj (lv_cls l) (set_attr a2 (lv_name l) w)) p = py_getattr (VObj (lv_cls l) a2) p).
  { unfold py_getattr. rewrite lookup_set_other; auto. }
  rewrite Z. auto.
Qed.

(** ** Selectors *)
Lemma after_peek_plain s k : stream_ok s -> (k <= List.length (rest s))%nat ->
  zlen (rest s) <= maxsize -> bytes_ok (rest s) -> forall x t,
  same_data x t [] (SReadAhead (firstn k (rest s)) false (consume k s)) s.
Proof.
  intros O K L B x t. split; [auto|]. split; [cbn; now apply consume_ok|]. split; [auto|].
  rewrite rest_after_peek by auto. split; [now rewrite app_nil_r|]. split; [cbn; discriminate|]. auto.
Qed.
Lemma plain_after_peek s k : stream_ok s -> (k <= List.length (rest s))%nat ->
  zlen (rest s) <= maxsize -> bytes_ok (rest s) -> forall x,
  same_data x true [] s (SReadAhead (firstn k (rest s)) false (consume k s)).
Proof.
  intros O K L B x. split; [auto|]. split; [auto|]. split; [cbn; now apply consume_ok|].
  rewrite rest_after_peek by auto. split; [now rewrite app_nil_r|]. split; [discriminate|]. auto.
Qed.

(** Data of an ordinary size: what every stream in these properties satisfies. *)
Definition good_stream (s : stream) : Prop :=
  stream_ok s /\ zlen (rest s) <= maxsize /\ bytes_ok (rest s).

Lemma peek_result {A} (p : rprog A) s a s' : rprog_ok p -> stream_ok s ->
  run_rprog p (SReadAhead [] true s) = (Ok a, s') ->
  exists j, (j <= List.length (rest s))%nat /\ s' = SReadAhead (firstn j (rest s)) true (consume j s)
            /\ run_rprog p s = (Ok a, consume j s).
Proof.
  intros P O E. destruct (run_rprog_sim p P (SReadAhead [] true s) s O O eq_refl) as (r & k & E1 & E2 & K).
  rewrite E1 in E. injection E as -> <-. exists k. auto.
Qed.
Lemma peek_back {A} (p : rprog A) s a s' : rprog_ok p -> stream_ok s ->
  run_rprog p s = (Ok a, s') ->
  exists j, (j <= List.length (rest s))%nat /\ s' = consume j s
            /\ run_rprog p (SReadAhead [] true s) = (Ok a, SReadAhead (firstn j (rest s)) true (consume j s)).
Proof.
  intros P O E. destruct (run_rprog_sim p P s (SReadAhead [] true s) O O eq_refl) as (r & k & E1 & E2 & K).
  rewrite E1 in E. injection E as -> <-. exists k. auto.
Qed.

(** The end of a selector: what the chosen reader did on the wrapper, and whether the buffer is
    empty afterwards. *)
Lemma sel_tail h m c s j (e : exn) : portable h false false m -> good_stream s ->
  (j <= List.length (rest s))%nat -> forall v s',
  sbind (read h m c) (fun result => sbind is_read_ahead_empty (fun empty =>
    if negb empty then sraise e else sret result))
    (SReadAhead (firstn j (rest s)) false (consume j s)) = (Ok v, s') ->
  exists k, s' = SReadAhead [] false (consume k s) /\ (j <= k <= List.length (rest s))%nat
    /\ read h m c s = (Ok v, consume k s).
Proof.
  intros P (O & L & B) J v s' E.
  apply sbind_inv in E as (w & s3 & E1 & E).
  destruct (proj1 (sim_all h) m false false [] _ s c w s3 P (after_peek_plain s j O J L B false false) E1)
    as (k & -> & K & E2).
  rewrite rest_after_peek in K by auto.
  apply sbind_inv in E as (em & s4 & E3 & E). cbn [consume is_read_ahead_empty] in E3.
  unfold is_read_ahead_empty in E3. injection E3 as <- <-.
  destruct (Z.eqb_spec (zlen (skipn k (firstn j (rest s)))) 0) as [Z0|]; [|discriminate].
  cbn [negb] in E. injection E as <- <-.
  destruct (drained_consume s j k O J K Z0) as [C JK].
  exists k. rewrite C, (zlen_0_nil _ Z0). split; [auto|]. split; [lia|auto].
Qed.

Lemma sel_tail_back h m c s j (e : exn) : portable h false true m -> good_stream s ->
  (j <= List.length (rest s))%nat -> forall v s',
  read h m c s = (Ok v, s') ->
  exists k, s' = consume k s /\ (k <= List.length (rest s))%nat
    /\ exists b s2,
       sbind (read h m c) (fun result => sbind is_read_ahead_empty (fun empty =>
         if negb empty then sraise e else sret result))
         (SReadAhead (firstn j (rest s)) false (consume j s))
       = (if (j <=? k)%nat then Ok v else Err e, SReadAhead b false s2)
       /\ ((j <= k)%nat -> s2 = consume k s).
Proof.
  intros P (O & L & B) J v s' E.
  destruct (proj1 (sim_all h) m false true [] s _ c v s' P (plain_after_peek s j O J L B false) E)
    as (k & -> & K & E2).
  exists k. split; [auto|]. split; [auto|].
  unfold sbind at 1. rewrite E2. unfold sbind. cbn [consume is_read_ahead_empty]. unfold is_read_ahead_empty.
  rewrite zlen_skipn, zlen_firstn.
  destruct (Nat.leb_spec j k) as [JK|JK].
  - replace (Z.max 0 (Z.min (Z.of_nat j) (zlen (rest s)) - Z.of_nat k) =? 0) with true by (unfold zlen; lia).
    cbn [negb]. unfold sret. eexists _, _. split; [reflexivity|]. intros _.
    rewrite consume_consume by auto. f_equal. rewrite firstn_length. lia.
  - replace (Z.max 0 (Z.min (Z.of_nat j) (zlen (rest s)) - Z.of_nat k) =? 0) with false by (unfold zlen; lia).
    cbn [negb]. unfold sraise. eexists _, _. split; [reflexivity|]. lia.
Qed.

Lemma fun_selector_sound h choices func mm c s v s' :
  rprog_ok (func c) -> Forall (portable h false false) choices -> good_stream s ->
  read h (MFunSel choices func mm) c s = (Ok v, s') ->
  exists i m j k, run_rprog (func c) s = (Ok i, consume j s) /\ nth_error choices i = Some m
    /\ read h m c s = (Ok v, s') /\ s' = consume k s /\ (j <= k <= List.length (rest s))%nat.
Proof.
  intros Pf Pc G E. pose proof G as (O & L & B). rewrite read_funsel in E.
  apply with_read_ahead_inv in E as (w & E & ->).
  apply sbind_inv in E as (u & s1 & E1 & E). cbn in E1. injection E1 as <- <-.
  apply sbind_inv in E as (i & s2 & E2 & E).
  destruct (peek_result _ _ _ _ Pf O E2) as (j & J & -> & E3).
  apply sbind_inv in E as (u' & s3 & E4 & E). cbn in E4. injection E4 as <- <-.
  unfold read_choice in E. destruct (nth_error choices i) as [m|] eqn:Ni; [|discriminate].
  assert (Pm : portable h false false m).
  { apply (proj1 (Forall_forall _ _) Pc). now apply nth_error_In in Ni. }
  destruct (sel_tail h m c s j AttributeError Pm G J _ _ E) as (k & -> & JK & R).
  exists i, m, j, k. auto.
Qed.

Lemma fun_selector_complete h choices func mm c s i s1 m v s' :
  rprog_ok (func c) -> good_stream s ->
  run_rprog (func c) s = (Ok i, s1) -> nth_error choices i = Some m -> portable h false true m ->
  read h m c s = (Ok v, s') ->
  exists j k, s1 = consume j s /\ s' = consume k s /\ (j <= List.length (rest s))%nat
    /\ (k <= List.length (rest s))%nat
    /\ ((j <= k)%nat -> read h (MFunSel choices func mm) c s = (Ok v, s'))
    /\ ((k < j)%nat -> fst (read h (MFunSel choices func mm) c s) = Err AttributeError).
Proof.
  intros Pf G F Ni Pm R. pose proof G as (O & L & B).
  destruct (peek_back _ _ _ _ Pf O F) as (j & J & -> & E).
  destruct (sel_tail_back h m c s j AttributeError Pm G J v s' R) as (k & -> & K & b & s2 & E2 & S2).
  exists j, k. split; [auto|]. split; [auto|]. split; [auto|]. split; [auto|].
  assert (X : read h (MFunSel choices func mm) c s = (if (j <=? k)%nat then Ok v else Err AttributeError, s2)).
  { rewrite read_funsel. unfold with_read_ahead. unfold sbind at 1. cbn [set_read_ahead].
    unfold sbind at 1. rewrite E. unfold sbind at 1. cbn [set_read_ahead].
    unfold read_choice. rewrite Ni, E2. reflexivity. }
  split; intros Q; rewrite X.
  - replace (j <=? k)%nat with true by lia. now rewrite S2.
  - replace (j <=? k)%nat with false by lia. reflexivity.
Qed.

Lemma key_selector_mapping h key m1 m2 d c s :
  read h (MSel key m1 d) c s = read h (MSel key m2 d) c s.
Proof. now rewrite !read_sel. Qed.

Lemma key_selector_no_default h key mapping c s : forall v s',
  read h (MSel key mapping None) c s <> (Ok v, s').
Proof.
  intros v s' E. rewrite read_sel in E. apply with_read_ahead_inv in E as (w & E & _).
  apply sbind_inv in E as (? & ? & _ & E). apply sbind_inv in E as (? & ? & _ & E).
  apply sbind_inv in E as (? & ? & _ & E). apply sbind_inv in E as (? & ? & _ & E). discriminate.
Qed.

Lemma key_selector_no_default_error h key mapping c s k s1 :
  portable h false true key -> good_stream s -> read h key c s = (Ok k, s1) -> hashable k = true ->
  fst (read h (MSel key mapping None) c s) = Err InstructError.
Proof.
  intros P (O & L & B) R Hk. rewrite read_sel. unfold with_read_ahead. unfold sbind at 1. cbn [set_read_ahead].
  assert (D : same_data false true [] s (SReadAhead [] true s)).
  { split; [auto|]. split; [auto|]. split; [auto|]. split; [cbn; now rewrite app_nil_r|]. split; [discriminate|auto]. }
  destruct (proj1 (sim_all h) key false true [] _ _ c k s1 P D R) as (j & _ & J & E).
  unfold sbind at 1. rewrite E. rewrite peek_consume. unfold sbind at 1. cbn [set_read_ahead].
  unfold sbind at 1, slift. rewrite Hk. reflexivity.
Qed.

Lemma key_selector_list_key h key mapping d c s l s1 :
  portable h false true key -> good_stream s -> read h key c s = (Ok (VList l), s1) ->
  fst (read h (MSel key mapping d) c s) = Err TypeError.
Proof.
  intros P (O & L & B) R. rewrite read_sel. unfold with_read_ahead. unfold sbind at 1. cbn [set_read_ahead].
  assert (D : same_data false true [] s (SReadAhead [] true s)).
  { split; [auto|]. split; [auto|]. split; [auto|]. split; [cbn; now rewrite app_nil_r|]. split; [discriminate|auto]. }
  destruct (proj1 (sim_all h) key false true [] _ _ c (VList l) s1 P D R) as (j & _ & J & E).
  unfold sbind at 1. rewrite E. rewrite peek_consume. unfold sbind at 1. cbn [set_read_ahead].
  unfold sbind at 1, slift. reflexivity.
Qed.

Lemma key_selector_default h key mapping d c s v s' :
  portable h false false key -> portable h false false d -> good_stream s ->
  read h (MSel key mapping (Some d)) c s = (Ok v, s') -> read h d c s = (Ok v, s').
Proof.
  intros Pk Pd G E. pose proof G as (O & L & B). rewrite read_sel in E.
  apply with_read_ahead_inv in E as (w & E & ->).
  apply sbind_inv in E as (u & s1 & E1 & E). cbn in E1. injection E1 as <- <-.
  apply sbind_inv in E as (k & s2 & E2 & E).
  assert (D : same_data false false [] (SReadAhead [] true s) s).
  { split; [auto|]. split; [auto|]. split; [auto|]. split; [cbn; now rewrite app_nil_r|]. split; [discriminate|auto]. }
  destruct (proj1 (sim_all h) key false false [] _ _ c k s2 Pk D E2) as (j & -> & J & _).
  rewrite peek_consume in E. cbn [rest] in J.
  apply sbind_inv in E as (u' & s3 & E4 & E). cbn in E4. injection E4 as <- <-.
  apply sbind_inv in E as (u' & s3 & E5 & E). apply slift_inv in E5 as [_ ->].
  destruct (sel_tail h d c s j InstructError Pd G J _ _ E) as (k' & -> & _ & R). auto.
Qed.

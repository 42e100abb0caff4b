(** Facts behind the properties of fields, strings, arrays, maps, pointers and selectors
    (C17, C18, C20-C24, C26-C28). *)
From Verif Require Import Base BaseProofs IntCodec CodecSpec IntCodecProofs FloatProofs
  BitStringIO Stream StreamSpec StreamProofs MinMax Marshal BitFieldSpec BitFieldProofs
  MarshalSpec MarshalInd MarshalRT NumericFacts WriteFacts SizeSpec SizeFacts SimSpec SimFacts
  FieldSpec MarshalFacts.
From Coq Require Import ZArith List Bool String Lia ZifyBool ZifyNat.
Import ListNotations.
Open Scope Z_scope.
Ltac Zify.zify_post_hook ::= Z.div_mod_to_equations.

(** ** Constant fields *)
Lemma const_write h n m k a out : write_field h (FConst n m k) a out = write h m k out.
Proof. reflexivity. Qed.

Lemma const_read h cls cctx n m k c s a :
  read_field h cls cctx (FConst n m k) c (s, a)
  = match read h m (get_updated_context cctx (VObj cls a) c) s with
    | (Ok v, s') => (if py_eq v k then Ok tt else Err InstructError, (s', a))
    | (Err e, s') => (Err e, (s', a))
    end.
Proof. apply read_field_const. Qed.

Lemma const_wrong_encoding h cls cctx n m k c a v s :
  canon h true m (get_updated_context cctx (VObj cls a) c) v -> py_eq v k = false ->
  exists enc, (forall out, write h m v out = (Ok tt, out ++ enc))
    /\ (stream_ok s -> has_tell s = true -> (exists tl, rest s = enc ++ tl) ->
        fst (read_field h cls cctx (FConst n m k) c (s, a)) = Err InstructError).
Proof.
  intros C N. destruct (canon_roundtrip _ _ _ _ _ C) as (enc & W & _ & Rd).
  exists enc. split; [auto|]. intros O T (tl & R).
  rewrite read_field_const, (Rd s tl O (fun _ => T) R), N. reflexivity.
Qed.

Lemma py_eq_obj v cls a : py_eq v (VObj cls a) = false.
Proof. destruct v; reflexivity. Qed.

Lemma const_struct_unreadable h cls cctx n m cls' a' c st :
  fst (read_field h cls cctx (FConst n m (VObj cls' a')) c st) <> Ok tt.
Proof.
  destruct st as [s a]. rewrite read_field_const.
  destruct (read h m _ s) as [[v|e] s']; cbn; [rewrite py_eq_obj|]; discriminate.
Qed.

Lemma class_attrs_in fs n m k : In (FConst n m k) fs -> In (n, k) (class_attrs fs).
Proof. intros I. unfold class_attrs. apply in_flat_map. exists (FConst n m k). cbn. auto. Qed.

Lemma lookup_in {A} (l : list (name * A)) n v : NoDup (map fst l) -> In (n, v) l -> lookup l n = Some v.
Proof.
  induction l as [|[k w] l IH]; intros N I; [destruct I|]. inversion N as [|x y Nx Ny]; subst.
  cbn [lookup]. destruct I as [I|I].
  - injection I as -> ->. now rewrite String.eqb_refl.
  - destruct (String.eqb_spec k n) as [->|]; [|auto]. exfalso. apply Nx.
    change n with (fst (n, v)). now apply in_map.
Qed.

Lemma const_assign fs a n m k v : NoDup (map fst (class_attrs fs)) -> In (FConst n m k) fs ->
  assign_attr fs a n v = if py_eq v k then Ok a else Err InstructError.
Proof.
  intros N I. unfold assign_attr. now rewrite (lookup_in _ n k N (class_attrs_in fs n m k I)).
Qed.

Lemma lookup_set_other a n n' v : n' <> n -> lookup (set_attr a n' v) n = lookup a n.
Proof.
  intros N. induction a as [|[k w] a IH]; cbn.
  - destruct (String.eqb_spec n' n); tauto.
  - destruct (String.eqb_spec k n') as [->|]; cbn; [destruct (String.eqb_spec n' n); tauto|].
    now rewrite IH.
Qed.
Lemma lookup_set_same a n v : lookup (set_attr a n v) n = Some v.
Proof.
  induction a as [|[k w] a IH]; cbn; [now rewrite String.eqb_refl|].
  destruct (String.eqb_spec k n) as [->|]; cbn; [now rewrite String.eqb_refl|].
  destruct (String.eqb_spec k n); [tauto|auto].
Qed.

Lemma prepare_other kwargs a n n' d : n' <> n -> lookup (prepare_field kwargs a n' d) n = lookup a n.
Proof.
  intros N. unfold prepare_field. destruct (lookup kwargs n'); [now apply lookup_set_other|].
  destruct (lookup a n'); [auto|now apply lookup_set_other].
Qed.

Lemma prepare_bits_other kwargs n bs : forall a,
  ~ In n (flat_map (fun b => match b with BField n _ _ => [n] | _ => [] end) bs) ->
  lookup (fold_left (fun a b => match b with BField n _ d => prepare_field kwargs a n d | _ => a end) bs a) n
  = lookup a n.
Proof.
  induction bs as [|b bs IH]; intros a N; cbn; auto. cbn in N.
  destruct b; cbn in N.
  - rewrite IH by tauto. apply prepare_other. intros ->. tauto.
  - now apply IH.
  - now apply IH.
Qed.

Lemma prepare_instance_other kwargs n : forall f a, ~ In n (stored_names f) ->
  lookup (prepare_instance kwargs a f) n = lookup a n.
Proof.
  refine (proj2 (marshal_field_ind (fun _ => True) (fun f => forall a, ~ In n (stored_names f) ->
    lookup (prepare_instance kwargs a f) n = lookup a n) _ _ _ _ _ _ _ _ _ _ _ _ _ _ _ _ _ _ _ _ _ _)); auto.
  - intros n0 m d _ a N. cbn in *. apply prepare_other. intros ->. tauto.
  - intros n0 m pred d _ a N. cbn in *. apply prepare_other. intros ->. tauto.
  - intros fs F a N. cbn in *. revert a N. induction F as [|f fs Hf _ IH]; intros a N; cbn; auto.
    cbn in N. rewrite in_app_iff in N. rewrite IH by tauto. apply Hf. tauto.
  - intros bs a N. now apply prepare_bits_other.
  - intros size bs a N. now apply prepare_bits_other.
Qed.

Lemma const_attribute fs cls n m k kwargs :
  NoDup (map fst (class_attrs fs)) -> In (FConst n m k) fs -> ~ In n (flat_map stored_names fs) ->
  py_getattr (VObj cls (new_attrs fs kwargs)) n = Ok k.
Proof.
  intros N I S. unfold py_getattr, new_attrs.
  assert (G : forall l a, ~ In n (flat_map stored_names l) ->
    lookup (fold_left (prepare_instance kwargs) l a) n = lookup a n).
  { induction l as [|f l IH]; intros a L; cbn; auto. cbn in L. rewrite in_app_iff in L.
    rewrite IH by tauto. apply prepare_instance_other. tauto. }
  rewrite G by auto. now rewrite (lookup_in _ n k N (class_attrs_in fs n m k I)).
Qed.

(** ** Optional fields *)
Lemma optional_write h n m pred d a out :
  write_field h (FOpt n m pred d) a out
  = match field_value n d a with VNone => (Ok tt, out) | v => write h m v out end.
Proof. cbn [write_field]. now destruct (field_value n d a). Qed.

Lemma optional_read_pure h cls cctx n m pred d c s a b :
  pred (VObj cls a) (get_updated_context cctx (VObj cls a) c) = RRet (Ok b) ->
  read_field h cls cctx (FOpt n m pred d) c (s, a)
  = if b then read_field h cls cctx (FField n m d) c (s, a) else (Ok tt, (s, a)).
Proof. intros E. rewrite read_field_opt, read_field_field, E. cbn [run_rprog slift]. now destruct b. Qed.

Lemma optional_read_any h cls cctx n m pred d c s a :
  read_field h cls cctx (FOpt n m pred d) c (s, a)
  = match run_rprog (pred (VObj cls a) (get_updated_context cctx (VObj cls a) c)) s with
    | (Ok true, s1) => read_field h cls cctx (FField n m d) c (s1, a)
    | (Ok false, s1) => (Ok tt, (s1, a))
    | (Err e, s1) => (Err e, (s1, a))
    end.
Proof.
  rewrite read_field_opt. destruct (run_rprog _ s) as [[[]|e] s1]; auto. now rewrite read_field_field.
Qed.

(** ** Strings *)
Lemma existsb_In x set : existsb (Z.eqb x) set = true <-> In x set.
Proof.
  rewrite existsb_exists. split.
  - intros (y & I & E). apply Z.eqb_eq in E. now subst.
  - intros I. exists x. split; [auto|apply Z.eqb_refl].
Qed.

Lemma lstrip_spec set b : exists l, b = l ++ lstrip_bytes set b /\ Forall (fun x => In x set) l
  /\ forall x t, lstrip_bytes set b = x :: t -> ~ In x set.
Proof.
  induction b as [|x b IH]; cbn.
  - exists []. repeat split; auto. discriminate.
  - destruct (existsb (Z.eqb x) set) eqn:E.
    + destruct IH as (l & Eb & F & N). exists (x :: l). split; [cbn; now f_equal|].
      split; [constructor; auto; now apply existsb_In|auto].
    + exists []. split; [auto|]. split; [auto|]. intros y t Q. injection Q as <- <-.
      rewrite <- existsb_In. congruence.
Qed.

Lemma rstrip_spec set b : exists r, b = rstrip_bytes set b ++ r /\ Forall (fun x => In x set) r
  /\ forall x t, rstrip_bytes set b = t ++ [x] -> ~ In x set.
Proof.
  destruct (lstrip_spec set (rev b)) as (l & E & F & N). exists (rev l). split; [|split].
  - unfold rstrip_bytes. rewrite <- rev_app_distr, <- E. now rewrite rev_involutive.
  - now apply Forall_rev.
  - intros x t Q. apply (N x (rev t)). unfold rstrip_bytes in Q.
    rewrite <- (rev_involutive (lstrip_bytes set (rev b))), Q, rev_app_distr. reflexivity.
Qed.

Lemma lstrip_suffix set x b t : lstrip_bytes set b = t ++ [x] -> exists t', b = t' ++ [x].
Proof.
  intros E. destruct (lstrip_spec set b) as (l & Eb & _). rewrite E in Eb. exists (l ++ t).
  now rewrite <- app_assoc.
Qed.

Lemma strip_trims d set b : trims (trims_left d) (trims_right d) set b (strip_bytes d set b).
Proof.
  unfold trims. destruct d; cbn [trims_left trims_right strip_bytes].
  - exists [], []. repeat split; auto. now rewrite app_nil_r.
  - destruct (rstrip_spec set b) as (r & E & F & N). exists [], r. repeat split; auto.
  - destruct (lstrip_spec set b) as (l & E & F & N). exists l, []. repeat split; auto.
    now rewrite app_nil_r.
  - destruct (rstrip_spec set b) as (r & E & F & N).
    destruct (lstrip_spec set (rstrip_bytes set b)) as (l & E2 & F2 & N2).
    exists l, r. split; [rewrite app_assoc, <- E2; exact E|]. repeat split; auto.
    intros x t Q. destruct (lstrip_suffix _ _ _ _ Q) as (t' & Q'). eauto.
Qed.

Lemma trims_lstrip set l core : Forall (fun x => In x set) l -> (forall x t, core = x :: t -> ~ In x set) ->
  lstrip_bytes set (l ++ core) = core.
Proof.
  intros F N. induction F as [|x l Hx _ IH]; cbn.
  - destruct core as [|x t]; auto. apply lstrip_keep. destruct (existsb (Z.eqb x) set) eqn:E; auto.
    apply existsb_In in E. exfalso. eapply N; eauto.
  - rewrite (proj2 (existsb_In x set)) by auto. exact IH.
Qed.
Lemma trims_rstrip set core r : Forall (fun x => In x set) r -> (forall x t, core = t ++ [x] -> ~ In x set) ->
  rstrip_bytes set (core ++ r) = core.
Proof.
  intros F N. unfold rstrip_bytes. rewrite rev_app_distr, trims_lstrip.
  - apply rev_involutive.
  - now apply Forall_rev.
  - intros x t E. apply (N x (rev t)). rewrite <- (rev_involutive core), E. reflexivity.
Qed.

(** The relation determines the result. *)
Lemma trims_strip d set b core : trims (trims_left d) (trims_right d) set b core -> strip_bytes d set b = core.
Proof.
  intros (l & r & -> & Fl & Fr & L & R). destruct d; cbn [trims_left trims_right strip_bytes] in *; subst.
  - now rewrite app_nil_r.
  - cbn. now apply trims_rstrip.
  - rewrite app_nil_r. now apply trims_lstrip.
  - (* both *)
    destruct core as [|x t] eqn:Ec.
    + (* everything is padding *)
      cbn [app]. rewrite <- (app_nil_l (l ++ r)).
      rewrite trims_rstrip; [reflexivity|now apply Forall_app|]. intros x t Q. now destruct t.
    + rewrite <- Ec in *. rewrite app_assoc. rewrite trims_rstrip; auto.
      * apply trims_lstrip; auto.
      * intros y t' Q. destruct (exists_last (l := core)) as (t0 & y0 & E0); [now rewrite Ec|].
        rewrite E0, app_assoc in Q. apply app_inj_tail in Q as [_ <-]. eapply R; eauto.
Qed.

Lemma strip_core d set core : trims (trims_left d) (trims_right d) set core core \/
  (exists b, trims (trims_left d) (trims_right d) set b core) -> strip_bytes d set core = core.
Proof.
  intros [H|(b & l & r & _ & _ & _ & L & R)]; [now apply trims_strip|].
  apply trims_strip. exists [], []. split; [now rewrite app_nil_r|]. repeat split; auto.
  - destruct (trims_left d); auto.
  - destruct (trims_right d); auto.
Qed.

Lemma strip_value d p b core : trims (trims_left d) (trims_right d) p b core ->
  _strip (VBytes b) d (VBytes p) = Ok (VBytes core).
Proof. intros T. pose proof (trims_strip _ _ _ _ T) as E. destruct d; cbn [_strip] in *; now rewrite <- E. Qed.

Lemma core_length (b core l r : list Z) : b = l ++ core ++ r -> zlen core <= zlen b.
Proof. intros ->. rewrite !zlen_app. pose proof (zlen_nonneg l). pose proof (zlen_nonneg r). lia. Qed.

Lemma padded_write h size p0 ps d b core out :
  trims (trims_left d) (trims_right d) (p0 :: ps) b core -> zlen core <= size ->
  write h (MPadStr size (VBytes (p0 :: ps)) d) (VBytes b) out
  = (Ok tt, out ++ core ++ repeat p0 (Z.to_nat (size - zlen core))).
Proof.
  intros T L. cbn [write]. unfold sbind, slift. rewrite (strip_value _ _ _ _ T).
  cbn [out_write_value out_write py_len].
  destruct (Z.ltb_spec (zlen core) size) as [H|H].
  - unfold out_write. now rewrite <- app_assoc.
  - replace (size - zlen core) with 0 by lia. cbn [Z.to_nat repeat]. now rewrite app_nil_r.
Qed.

Lemma pad_length size (core : list Z) p0 : zlen core <= size ->
  zlen (core ++ repeat p0 (Z.to_nat (size - zlen core))) = size.
Proof. intros L. rewrite zlen_app, zlen_repeat. lia. Qed.

Lemma sread_mid pre b tail : zlen b <= maxsize ->
  sread (zlen b) (SBytesIO (pre ++ b ++ tail) (zlen pre))
  = (Ok b, SBytesIO (pre ++ b ++ tail) (zlen pre + zlen b)).
Proof.
  intros L. unfold sread, sread_. pose proof (zlen_nonneg b).
  replace ((zlen b <? - maxsize - 1) || (maxsize <? zlen b)) with false by (unfold maxsize in *; lia).
  replace (zlen b <? 0) with false by lia.
  assert (E : firstn (Z.to_nat (zlen b)) (skipn (Z.to_nat (zlen pre)) (pre ++ b ++ tail)) = b).
  { unfold zlen. rewrite !Nat2Z.id, skipn_app, skipn_all, Nat.sub_diag. cbn [skipn app].
    rewrite firstn_app, Nat.sub_diag, firstn_all. apply app_nil_r. }
  now rewrite E.
Qed.

Lemma padded_read h size p d c pre enc tail : zlen enc = size -> size <= maxsize ->
  read h (MPadStr size (VBytes p) d) c (SBytesIO (pre ++ enc ++ tail) (zlen pre))
  = (Ok (VBytes (strip_bytes d p enc)), SBytesIO (pre ++ enc ++ tail) (zlen pre + size)).
Proof.
  intros L M. cbn [read]. unfold sbind. subst size. rewrite sread_mid by auto.
  rewrite Z.ltb_irrefl. unfold slift. destruct d; reflexivity.
Qed.

Lemma padded_roundtrip h size p0 ps d b core : d = PRight \/ d = PBoth ->
  trims (trims_left d) (trims_right d) (p0 :: ps) b core -> zlen core <= size <= maxsize ->
  exists enc, zlen enc = size
    /\ (forall out, write h (MPadStr size (VBytes (p0 :: ps)) d) (VBytes b) out = (Ok tt, out ++ enc))
    /\ forall c pre tail,
         read h (MPadStr size (VBytes (p0 :: ps)) d) c (SBytesIO (pre ++ enc ++ tail) (zlen pre))
         = (Ok (VBytes core), SBytesIO (pre ++ enc ++ tail) (zlen pre + size)).
Proof.
  intros D T L. exists (core ++ repeat p0 (Z.to_nat (size - zlen core))). split; [apply pad_length; lia|].
  split; [intros out; apply padded_write; auto; lia|].
  intros c pre tail. rewrite padded_read by (try apply pad_length; lia).
  rewrite strip_pad by auto. rewrite (strip_core d); eauto.
Qed.

Lemma padded_left h size p0 ps b core : trims true false (p0 :: ps) b core -> zlen core <= size <= maxsize ->
  (forall out, write h (MPadStr size (VBytes (p0 :: ps)) PLeft) (VBytes b) out
               = (Ok tt, out ++ core ++ repeat p0 (Z.to_nat (size - zlen core))))
  /\ forall c, read h (MPadStr size (VBytes (p0 :: ps)) PLeft) c
                 (stream_of (core ++ repeat p0 (Z.to_nat (size - zlen core))))
     = (Ok (VBytes (match core with [] => [] | _ => core ++ repeat p0 (Z.to_nat (size - zlen core)) end)),
        SBytesIO (core ++ repeat p0 (Z.to_nat (size - zlen core))) size).
Proof.
  intros T L. split; [intros out; apply padded_write; auto; lia|].
  intros c. set (enc := core ++ _).
  pose proof (padded_read h size (p0 :: ps) PLeft c [] enc [] ltac:(apply pad_length; lia) ltac:(lia)) as R.
  rewrite app_nil_r in R. cbn [app] in R. rewrite zlen_nil, Z.add_0_l in R. unfold stream_of. rewrite R. f_equal. f_equal. f_equal.
  unfold enc. cbn [strip_bytes]. destruct T as (l & r & _ & _ & _ & Lc & _). destruct core as [|x t].
  - cbn [app]. rewrite <- (app_nil_r (repeat _ _)). rewrite lstrip_pad by apply existsb_head. reflexivity.
  - cbn [app]. apply lstrip_keep. destruct (existsb (Z.eqb x) (p0 :: ps)) eqn:E; auto.
    apply existsb_In in E. exfalso. eapply Lc; eauto.
Qed.

(** Too long: everything is written, but only the declared size is read back. *)
Lemma padded_overlong h size p d b core : d <> PNone ->
  trims (trims_left d) (trims_right d) p b core -> 0 <= size < zlen core -> size <= maxsize ->
  (forall out, write h (MPadStr size (VBytes p) d) (VBytes b) out = (Ok tt, out ++ core))
  /\ forall c pre tail,
       read h (MPadStr size (VBytes p) d) c (SBytesIO (pre ++ core ++ tail) (zlen pre))
       = (Ok (VBytes (strip_bytes d p (firstn (Z.to_nat size) core))),
          SBytesIO (pre ++ core ++ tail) (zlen pre + size)).
Proof.
  intros N T L M. split.
  - intros out. cbn [write]. unfold sbind, slift. rewrite (strip_value _ _ _ _ T).
    cbn [out_write_value out_write py_len]. replace (zlen core <? size) with false by lia. reflexivity.
  - intros c pre tail. rewrite <- (firstn_skipn (Z.to_nat size) core) at 1 3. rewrite <- app_assoc.
    apply padded_read; [|auto]. rewrite zlen_firstn. lia.
Qed.

(** FixedSizeBuffer: the padding is empty. *)
Lemma fixed_buffer_short h size b out : zlen b < size ->
  write h (MPadStr size (VBytes []) PNone) (VBytes b) out = (Err IndexError, out ++ b).
Proof.
  intros L. cbn [write]. unfold sbind, slift. cbn [_strip out_write_value out_write py_len].
  replace (zlen b <? size) with true by lia. reflexivity.
Qed.
Lemma fixed_buffer_exact h size b : bytes_ok b -> zlen b = size -> size <= maxsize ->
  forall c, roundtrips h (MPadStr size (VBytes []) PNone) c (VBytes b) b.
Proof.
  intros B L M c. split.
  - intros out. cbn [write]. unfold sbind, slift. cbn [_strip out_write_value out_write py_len].
    replace (zlen b <? size) with false by lia. reflexivity.
  - intros pre tail. rewrite padded_read by auto. cbn [strip_bytes]. now rewrite L.
Qed.

(** Length-prefixed strings. *)
Lemma int_enc h f z : int_representable f z ->
  exists enc, zlen enc = width_in_bytes (f_size f) /\ forall c, roundtrips h (MInt f) c (VInt z) enc.
Proof.
  intros R. destruct (int_roundtrip h f z R) as (b & L & W & Rd). exists b. split; [auto|].
  intros c. split; [exact W|]. intros pre tail. apply Rd.
Qed.

Lemma varstr_roundtrip h sz p d b core encn c :
  trims (trims_left d) (trims_right d) p b core -> zlen core <= maxsize ->
  roundtrips h sz c (VInt (zlen core)) encn ->
  (forall out, write h (MVarStr sz (VBytes p) d) (VBytes b) out = (Ok tt, out ++ encn ++ core))
  /\ forall pre tail,
       read h (MVarStr sz (VBytes p) d) c (SBytesIO (pre ++ (encn ++ core) ++ tail) (zlen pre))
       = (Ok (VBytes core), SBytesIO (pre ++ (encn ++ core) ++ tail) (zlen pre + zlen (encn ++ core))).
Proof.
  intros T L (W & Rd). split.
  - intros out. cbn [write]. unfold sbind, slift. rewrite (strip_value _ _ _ _ T). cbn [py_len].
    rewrite W. cbn [out_write_value]. unfold out_write. now rewrite <- app_assoc.
  - intros pre tail. cbn [read]. unfold sbind, slift. rewrite <- app_assoc, Rd. cbn [as_int].
    replace (SBytesIO (pre ++ encn ++ core ++ tail) (zlen pre + zlen encn))
      with (SBytesIO ((pre ++ encn) ++ core ++ tail) (zlen (pre ++ encn)))
      by (rewrite zlen_app, <- app_assoc; reflexivity).
    rewrite sread_mid by auto. rewrite Z.ltb_irrefl.
    assert (E : _strip (VBytes core) d (VBytes p) = Ok (VBytes core)).
    { apply strip_value. destruct T as (l & r & _ & _ & _ & Lc & Rc). exists [], [].
      split; [now rewrite app_nil_r|]. repeat split; auto.
      - destruct (trims_left d); auto.
      - destruct (trims_right d); auto. }
    rewrite E. f_equal. rewrite !zlen_app, <- app_assoc. f_equal. lia.
Qed.

Lemma varstr_too_long h f p d b core out : trims (trims_left d) (trims_right d) p b core ->
  ~ int_representable f (zlen core) ->
  write h (MVarStr (MInt f) (VBytes p) d) (VBytes b) out = (Err InstructError, out).
Proof.
  intros T N. cbn [write]. unfold sbind, slift. rewrite (strip_value _ _ _ _ T). cbn [py_len].
  pose proof (int_reject h f (zlen core) out N) as E. cbn [write] in E. now rewrite E.
Qed.

Lemma varstr_short h sz p d c n encn pre got :
  roundtrips h sz c (VInt n) encn -> zlen got < n <= maxsize ->
  fst (read h (MVarStr sz p d) c (SBytesIO (pre ++ encn ++ got) (zlen pre))) = Err InstructError.
Proof.
  intros (W & Rd) L. cbn [read]. unfold sbind, slift. rewrite Rd. cbn [as_int].
  unfold sread, sread_. pose proof (zlen_nonneg got).
  replace ((n <? - maxsize - 1) || (maxsize <? n)) with false by (unfold maxsize in *; lia).
  replace (n <? 0) with false by lia.
  match goal with |- context [zlen ?l <? n] => replace (zlen l <? n) with true end; [reflexivity|].
  symmetry. apply Z.ltb_lt. rewrite zlen_firstn, zlen_skipn, !zlen_app. unfold zlen in *. lia.
Qed.

(** The macro's default padding is a str. *)
Lemma varstr_str_padding h sz s d v out out' : d <> PNone ->
  write h (MVarStr sz (VStr s) d) (VBytes v) out <> (Ok tt, out').
Proof. intros N. cbn [write]. unfold sbind, slift. destruct d; try tauto; discriminate. Qed.
Lemma varstr_str_padding_read h sz s d c st v st' : d <> PNone ->
  read h (MVarStr sz (VStr s) d) c st <> (Ok v, st').
Proof.
  intros N E. cbn [read] in E. apply sbind_inv in E as (len & s1 & _ & E).
  apply sbind_inv in E as (n & s2 & _ & E). apply sbind_inv in E as (b & s3 & _ & E).
  destruct (zlen b <? n); [discriminate|]. unfold slift in E. destruct d; try tauto; discriminate.
Qed.

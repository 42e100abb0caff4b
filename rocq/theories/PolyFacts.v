(** Proofs: objects written by their own class. *)
From Verif Require Import Base BaseProofs IntCodec BitStringIO Stream MinMax Marshal MarshalInd MarshalSpec WriteFacts SizeSpec SizeFacts FieldFacts MarshalFacts SimFacts Poly PolySpec.
From Coq Require Import ZArith List Bool String Lia ZifyBool ZifyNat.
Import ListNotations.
Open Scope Z_scope.

Section Facts.
Variable h : host.
Variable W : world.

(** ** The loops as ordinary functions *)
Lemma dsize_fields_fix so fs a :
  (fix go (fs : list field) : res (list Z) :=
     match fs with
     | [] => Ok []
     | f :: r => let* x := dsize_field so f a in let* xs := go r in Ok (x :: xs)
     end) fs = dsize_fields so fs a.
Proof. induction fs as [|f r IH]; cbn; [auto|]. now rewrite IH. Qed.
Lemma dsize_struct so cls cctx fs v : dsize so (MStruct cls cctx fs) v = let* l := dsize_fields so fs (attrs_of v) in Ok (fold_left Z.add l 0).
Proof. rewrite <- dsize_fields_fix. reflexivity. Qed.
Lemma dsize_group so fs a : dsize_field so (FGroup fs) a = let* l := dsize_fields so fs a in Ok (fold_left Z.add l 0).
Proof. rewrite <- dsize_fields_fix. reflexivity. Qed.
Lemma dwrite_group wo so fs a : dwrite_field h wo so (FGroup fs) a = dwrite_fields h wo so fs a.
Proof. cbn [dwrite_field]. induction fs as [|f r IH]; cbn; [auto|]. now rewrite IH. Qed.
Fixpoint defined_fields (fs : list field) : Prop := match fs with [] => True | f :: r => defined_field W f /\ defined_fields r end.
Lemma defined_struct cls cctx fs : defined W (MStruct cls cctx fs) <-> W cls = Some fs /\ defined_fields fs.
Proof. cbn [defined]. assert (E : forall P : Prop, P <-> P) by tauto. apply and_iff_compat_l. induction fs as [|f r IH]; cbn; [tauto|]. now rewrite IH. Qed.
Lemma defined_group fs : defined_field W (FGroup fs) <-> defined_fields fs.
Proof. cbn [defined_field]. induction fs as [|f r IH]; cbn; [tauto|]. now rewrite IH. Qed.

(** A size prefix that was written has a size that does not depend on objects. *)
Lemma prefix_size so sz z out out' : write h sz (VInt z) out = (Ok tt, out') -> forall v, dsize so sz v = sizeof sz v.
Proof. intros H v. destruct sz; try reflexivity; try (destruct d); cbn in H; try discriminate. Qed.

Definition same_write (n : nat) (m : marshal) : Prop :=
  forall v out out', write h m v out = (Ok tt, out') ->
    pwrite h W n m v out = (Ok tt, out') /\ psize W n m v = sizeof m v
    /\ (for_objects m -> forall cls a, v = VObj cls a -> obj_size W n cls a = sizeof m v).
Definition same_write_field (n : nat) (f : field) : Prop :=
  forall a out out', write_field h f a out = (Ok tt, out') ->
    dwrite_field h (obj_write h W n) (obj_size W n) f a out = (Ok tt, out') /\ dsize_field (obj_size W n) f a = sizeof_field f a.

Lemma sbind_okl {S A B} (m : stM S A) (f : A -> stM S B) s b s' : sbind m f s = (Ok b, s') -> exists a s1, m s = (Ok a, s1) /\ f a s1 = (Ok b, s').
Proof. unfold sbind. destruct (m s) as [[a|e] s1]; [eauto|discriminate]. Qed.
Lemma slift_okl {S A} (r : res A) (s : S) a s' : slift r s = (Ok a, s') -> r = Ok a /\ s' = s.
Proof. unfold slift. intros H. inversion H. auto. Qed.

Lemma foreach_same n el l : same_write n el -> forall out out', sforeach l (write h el) out = (Ok tt, out') ->
  sforeach l (dwrite h (obj_write h W n) (obj_size W n) el) out = (Ok tt, out') /\ rmap_list (dsize (obj_size W n) el) l = rmap_list (sizeof el) l.
Proof.
  intros H. induction l as [|x l IH]; intros out out' E; cbn [sforeach rmap_list] in *; [auto|].
  apply sbind_okl in E. destruct E as ([] & mid & E1 & E2). destruct (H _ _ _ E1) as (A & B & _). destruct (IH _ _ E2) as (A2 & B2).
  unfold pwrite, psize in A, B. split; [unfold sbind; rewrite A; exact A2|]. now rewrite B, B2.
Qed.
Lemma fields_same n fs : Forall (same_write_field n) fs -> forall a out out', write_fields h fs a out = (Ok tt, out') ->
  dwrite_fields h (obj_write h W n) (obj_size W n) fs a out = (Ok tt, out') /\ dsize_fields (obj_size W n) fs a = sizeof_fields fs a.
Proof.
  induction 1 as [|f fs Hf _ IH]; intros a out out' E; cbn [write_fields dwrite_fields sizeof_fields dsize_fields] in *; [auto|].
  apply sbind_okl in E. destruct E as ([] & mid & E1 & E2). destruct (Hf _ _ _ E1) as (A & B). destruct (IH _ _ _ E2) as (A2 & B2).
  split; [unfold sbind; rewrite A; exact A2|]. now rewrite B, B2.
Qed.
Lemma forall_bound {A} (P : nat -> A -> Prop) (D : A -> Prop) l : Forall (fun x => D x -> exists N, forall n, (N <= n)%nat -> P n x) l -> Forall D l ->
  exists N, forall n, (N <= n)%nat -> Forall (P n) l.
Proof.
  induction 1 as [|x l Hx _ IH]; intros HD; [exists 0%nat; auto|]. inversion HD as [|? ? D1 D2]; subst.
  destruct (Hx D1) as (N1 & H1). destruct (IH D2) as (N2 & H2). exists (Nat.max N1 N2). intros n Hn. constructor; [apply H1; lia|apply H2; lia].
Qed.
Lemma defined_fields_all fs : defined_fields fs <-> Forall (defined_field W) fs.
Proof. induction fs as [|f fs IH]; cbn; [split; constructor|]. rewrite IH. split; [intros (A & B); now constructor|intros A; now inversion A]. Qed.
Lemma obj_choice_same n m cls a out out' : for_objects m -> (exists c cc fs, m = MStruct c cc fs) -> same_write n m -> write h m (VObj cls a) out = (Ok tt, out') ->
  obj_write h W n cls a out = (Ok tt, out') /\ obj_size W n cls a = sizeof m (VObj cls a).
Proof.
  intros F (c & cc & fs & ->) H E. destruct (H _ _ _ E) as (A & B & D). split; [exact A|]. now apply D.
Qed.
Lemma sel_choice_struct mapping d cls m : (d = None \/ exists c cc fs, d = Some (MStruct c cc fs)) -> sel_choice mapping d cls = Some m ->
  (exists c cc fs, m = MStruct c cc fs) /\ (In m (map snd mapping) \/ d = Some m).
Proof.
  intros Hd. induction mapping as [|[k m'] r IH]; cbn [sel_choice map snd].
  - intros ->. destruct Hd as [Hd|(c & cc & fs & Hd)]; [discriminate|]. inversion Hd. split; eauto.
  - intros E. assert (R : sel_choice r d cls = Some m -> (exists c cc fs, m = MStruct c cc fs) /\ (In m (m' :: map snd r) \/ d = Some m)).
    { intros E'. destruct (IH E') as (A & [B|B]); split; auto. left. now right. }
    destruct m'; auto. destruct (String.eqb cls0 cls); [|auto]. inversion E; subst. split; [eauto|]. left. now left.
Qed.
Lemma class_choice_struct l cls m : class_choice l cls = Some m -> (exists c cc fs, m = MStruct c cc fs) /\ In m l.
Proof.
  induction l as [|m' r IH]; cbn [class_choice]; [discriminate|]. intros E.
  assert (R : class_choice r cls = Some m -> (exists c cc fs, m = MStruct c cc fs) /\ In m (m' :: r)) by (intros E'; destruct (IH E'); split; auto; now right).
  destruct m'; auto. destruct (String.eqb cls0 cls); [|auto]. inversion E; subst. split; [eauto|]. now left.
Qed.

Lemma same_all :
  (forall m, defined W m -> exists N, forall n, (N <= n)%nat -> same_write n m)
  /\ (forall f, defined_field W f -> exists N, forall n, (N <= n)%nat -> same_write_field n f).
Proof.
  apply (marshal_field_ind
    (fun m => defined W m -> exists N, forall n, (N <= n)%nat -> same_write n m)
    (fun f => defined_field W f -> exists N, forall n, (N <= n)%nat -> same_write_field n f)).
  1-5: intros; exists 0%nat; intros k0 _ v0 out out' E; split; [exact E|]; split; [reflexivity|intros []].
  - intros sz p d IH D. destruct (IH D) as (N & H). exists N. intros n Hn v out out' E.
    cbn [write] in E. apply sbind_okl in E. destruct E as (st & s1 & E1 & E). apply slift_okl in E1. destruct E1 as (E1 & ->).
    apply sbind_okl in E. destruct E as (k & s2 & E2 & E). apply slift_okl in E2. destruct E2 as (E2 & ->).
    apply sbind_okl in E. destruct E as ([] & s3 & E3 & E). destruct (H n Hn _ _ _ E3) as (A & _). split; [|split; [|intros []]].
    + unfold pwrite. cbn [dwrite]. unfold sbind, slift. rewrite E1, E2. fold (pwrite h W n sz). unfold pwrite in A. rewrite A. exact E.
    + unfold psize. cbn [dsize sizeof]. now rewrite (prefix_size _ _ _ _ _ E3).
  - intros; exists 0%nat; intros k _ v0 out out' E; split; [exact E|]; split; [reflexivity|intros []].
  - intros; exists 0%nat; intros k _ v0 out out' E; split; [exact E|]; split; [reflexivity|intros []].
  - intros sz el IH1 IH2 (D1 & D2). destruct (IH1 D1) as (N1 & H1). destruct (IH2 D2) as (N2 & H2). exists (Nat.max N1 N2). intros n Hn v out out' E.
    cbn [write] in E. apply sbind_okl in E. destruct E as (k & s1 & E1 & E). apply slift_okl in E1. destruct E1 as (E1 & ->).
    apply sbind_okl in E. destruct E as ([] & s2 & E2 & E). apply sbind_okl in E. destruct E as (l & s3 & E3 & E). apply slift_okl in E3. destruct E3 as (E3 & ->).
    destruct (H1 n ltac:(lia) _ _ _ E2) as (A & B & _). destruct (foreach_same n el l (H2 n ltac:(lia)) _ _ E) as (A2 & B2). split; [|split; [|intros []]].
    + unfold pwrite in *. cbn [dwrite]. unfold sbind, slift. rewrite E1, A, E3. exact A2.
    + unfold psize in *. cbn [dsize sizeof]. rewrite E1, E3. cbn [rbind]. now rewrite B, B2.
  - intros k el IH D. destruct (IH D) as (N & H). exists N. intros n Hn v out out' E.
    cbn [write] in E. apply sbind_okl in E. destruct E as (j & s1 & E1 & E). apply slift_okl in E1. destruct E1 as (E1 & ->).
    apply sbind_okl in E. destruct E as (l & s3 & E3 & E). apply slift_okl in E3. destruct E3 as (E3 & ->).
    destruct (foreach_same n el l (H n Hn) _ _ E) as (A2 & B2). split; [|split; [|intros []]].
    + unfold pwrite in *. cbn [dwrite]. unfold sbind, slift. rewrite E1, E3. exact A2.
    + unfold psize in *. cbn [dsize sizeof]. rewrite E1, E3. cbn [rbind]. now rewrite B2.
  - intros sz el IH1 IH2 (D1 & D2). destruct (IH1 D1) as (N1 & H1). destruct (IH2 D2) as (N2 & H2). exists (Nat.max N1 N2). intros n Hn v out out' E.
    cbn [write] in E. apply sbind_okl in E. destruct E as (l & s1 & E1 & E). apply slift_okl in E1. destruct E1 as (E1 & ->).
    apply sbind_okl in E. destruct E as (zs & s2 & E2 & E). apply slift_okl in E2. destruct E2 as (E2 & ->). apply sbind_okl in E. destruct E as ([] & s3 & E3 & E).
    destruct (H1 n ltac:(lia) _ _ _ E3) as (A & B & _). destruct (foreach_same n el l (H2 n ltac:(lia)) _ _ E) as (A2 & B2). split; [|split; [|intros []]].
    + unfold pwrite, psize in *. cbn [dwrite]. unfold sbind, slift. rewrite E1, B2, E2, A. exact A2.
    + unfold psize in *. cbn [dsize sizeof]. rewrite E1. cbn [rbind]. rewrite B2, E2. cbn [rbind]. now rewrite B.
  - intros tbl m IH D. destruct (IH D) as (N & H). exists N. intros n Hn v out out' E.
    cbn [write] in E. apply sbind_okl in E. destruct E as (w & s1 & E1 & E). apply slift_okl in E1. destruct E1 as (E1 & ->).
    destruct (H n Hn _ _ _ E) as (A & _). split; [|split; [reflexivity|intros []]]. unfold pwrite in *. cbn [dwrite]. unfold sbind, slift. rewrite E1. exact A.
  - intros cls cctx fs IH D. destruct (proj1 (defined_struct cls cctx fs) D) as (Dw & D2); clear D; rename D2 into D. apply (proj1 (defined_fields_all fs)) in D.
    destruct (forall_bound same_write_field _ _ IH D) as (N & H). exists (S N). intros n Hn v out out' E.
    destruct v as [| | | | | |cls' a]; try discriminate. rewrite write_struct in E. destruct (String.eqb cls' cls) eqn:Ec; [|discriminate]. apply String.eqb_eq in Ec. subst cls'.
    destruct n as [|k]; [lia|]. destruct (fields_same k fs (H k ltac:(lia)) _ _ _ E) as (A & B).
    destruct (fields_same (S k) fs (H (S k) ltac:(lia)) _ _ _ E) as (A' & B'). split; [|split].
    + unfold pwrite. cbn [dwrite obj_write]. rewrite Dw. exact A.
    + unfold psize. rewrite dsize_struct, sizeof_struct. cbn [attrs_of]. now rewrite B'.
    + intros _ c0 a0 Ev. inversion Ev; subst. cbn [obj_size]. rewrite Dw, sizeof_struct, B. reflexivity.
  - intros key mapping d IHk IHm IHd D. cbn [defined] in D. destruct D as (_ & Dm & Dd).
    assert (exists N, forall n, (N <= n)%nat -> Forall (fun p => same_write n (snd p)) mapping) as (N1 & H1).
    { apply (forall_bound (fun n (p : value * marshal) => same_write n (snd p)) (fun p => defined W (snd p))); [exact IHm|].
      clear - Dm. induction mapping as [|[k m] r IH]; constructor; destruct Dm; auto. }
    assert (exists N, forall n, (N <= n)%nat -> forall m, d = Some m -> same_write n m) as (N2 & H2).
    { destruct d as [m|]; [|exists 0%nat; discriminate]. destruct (IHd (proj2 Dd)) as (N & H). exists N. intros n Hn m' Em. inversion Em; subst. auto. }
    exists (Nat.max N1 N2). intros n Hn v out out' E. destruct v as [| | | | | |cls' a]; try discriminate. rewrite write_sel in E. destruct (sel_choice mapping d cls') as [m|] eqn:Es; [|discriminate].
    assert (Hd : d = None \/ exists c cc fs, d = Some (MStruct c cc fs)). { destruct d as [m'|]; [right|auto]. destruct Dd as ((c & cc & fs & ->) & _). eauto. }
    destruct (sel_choice_struct _ _ _ _ Hd Es) as (St & Hin).
    assert (Sm : same_write n m). { destruct Hin as [Hin|Hin]; [|apply (H2 n); [lia|exact Hin]]. specialize (H1 n ltac:(lia)). rewrite Forall_forall in H1.
      apply in_map_iff in Hin. destruct Hin as (p & <- & Hp). now apply H1. }
    assert (Fo : for_objects m) by (destruct St as (c & cc & fs & ->); exact I).
    destruct (obj_choice_same n m cls' a out out' Fo St Sm E) as (A & B).
    assert (Es2 : sizeof (MSel key mapping d) (VObj cls' a) = sizeof m (VObj cls' a)) by (rewrite sizeof_sel, Es; reflexivity).
    split; [exact A|]. split; [unfold psize; cbn [dsize]; congruence|]. intros _ c0 a0 Ev. inversion Ev; subst. congruence.
  - intros choices func mm IH D.
    assert (exists N, forall n, (N <= n)%nat -> Forall (same_write n) choices) as (N1 & H1).
    { apply (forall_bound same_write (defined W)); [exact IH|]. clear - D. cbn [defined] in D. induction choices as [|m r IHr]; constructor; destruct D; auto. }
    exists N1. intros n Hn v out out' E. destruct v as [| | | | | |cls' a]; try discriminate. rewrite write_funsel in E. destruct (class_choice choices cls') as [m|] eqn:Es; [|discriminate].
    destruct (class_choice_struct _ _ _ Es) as (St & Hin).
    assert (Sm : same_write n m). { specialize (H1 n ltac:(lia)). rewrite Forall_forall in H1. now apply H1. }
    assert (Fo : for_objects m) by (destruct St as (c & cc & fs & ->); exact I).
    destruct (obj_choice_same n m cls' a out out' Fo St Sm E) as (A & B).
    assert (Es2 : sizeof (MFunSel choices func mm) (VObj cls' a) = sizeof m (VObj cls' a)) by (rewrite sizeof_funsel, Es; reflexivity).
    split; [exact A|]. split; [unfold psize; cbn [dsize]; congruence|]. intros _ c0 a0 Ev. inversion Ev; subst. congruence.
  - intros n m d IH D. destruct (IH D) as (N & H). exists N. intros k Hk a out out' E. destruct (H k Hk _ _ _ E) as (A & B & _). split; [exact A|exact B].
  - intros m IH D. destruct (IH D) as (N & H). exists N. intros k Hk a out out' E. destruct (H k Hk _ _ _ E) as (A & B & _). split; [exact A|exact B].
  - intros n m v IH D. destruct (IH D) as (N & H). exists N. intros k Hk a out out' E. destruct (H k Hk _ _ _ E) as (A & B & _). split; [exact A|exact B].
  - intros n m pr d IH D. destruct (IH D) as (N & H). exists N. intros k Hk a out out' E. cbn [write_field dwrite_field sizeof_field dsize_field] in *.
    destruct (field_value n d a); [auto| | | | | |]; destruct (H k Hk _ _ _ E) as (A & B & _); (split; [exact A|exact B]).
  - intros fs IH D. apply (proj1 (defined_group fs)), (proj1 (defined_fields_all fs)) in D. destruct (forall_bound same_write_field _ _ IH D) as (N & H). exists N. intros n Hn a out out' E.
    rewrite write_group in E. destruct (fields_same n fs (H n Hn) _ _ _ E) as (A & B). rewrite dwrite_group, dsize_group, sizeof_group, B. auto.
  - intros bs _. exists 0%nat. intros n _ a out out' E. split; [exact E|reflexivity].
  - intros size bs _. exists 0%nat. intros n _ a out out' E. split; [exact E|reflexivity].
Qed.
End Facts.

Lemma field_value_agree n d a a' : lookup a n = lookup a' n -> field_value n d a = field_value n d a'.
Proof. unfold field_value. now intros ->. Qed.
Lemma bits_agree size bs a a' : (forall n, In n (bit_names bs) -> lookup a n = lookup a' n) -> forall out, write_bit_container size a bs out = write_bit_container size a' bs out.
Proof.
  intros H out. assert (E : forall b0, sforeach bs (write_bitfield a) b0 = sforeach bs (write_bitfield a') b0).
  { induction bs as [|b bs IH]; intros b0; cbn [sforeach]; [reflexivity|]. unfold sbind.
    assert (Eb : write_bitfield a b b0 = write_bitfield a' b b0).
    { destruct b as [n m d| |]; try reflexivity. unfold write_bitfield, bf_value. rewrite (H n) by (cbn; auto). reflexivity. }
    rewrite Eb. destruct (write_bitfield a' b b0) as [[u|e] b1]; [|reflexivity]. apply IH. intros n Hn. apply H. cbn [bit_names flat_map]. apply in_or_app. now right. }
  unfold write_bit_container, sbind. destruct (slift (bs_new_size size) out) as [[b0|e] s]; [|reflexivity]. now rewrite E.
Qed.
Lemma write_agree_all h : (forall m : marshal, True) /\ (forall f a a' out, (forall n, In n (attr_names f) -> lookup a n = lookup a' n) ->
  write_field h f a out = write_field h f a' out).
Proof.
  apply (marshal_field_ind (fun _ => True) (fun f => forall a a' out, (forall n, In n (attr_names f) -> lookup a n = lookup a' n) ->
    write_field h f a out = write_field h f a' out)); auto.
  - intros n m d _ a a' out H. cbn [write_field]. rewrite (field_value_agree n d a a'); [reflexivity|]. apply H. cbn. auto.
  - intros n m pr d _ a a' out H. cbn [write_field]. rewrite (field_value_agree n d a a'); [reflexivity|]. apply H. cbn. auto.
  - intros fs IH a a' out H. rewrite !write_group. revert out H. induction IH as [|f fs Hf _ IHf]; intros out H; [reflexivity|]. cbn [write_fields]. unfold sbind.
    rewrite (Hf a a' out) by (intros n Hn; apply H; cbn [attr_names flat_map]; apply in_or_app; now left).
    destruct (write_field h f a' out) as [[u|e] s]; [|reflexivity]. apply IHf. intros n Hn. apply H. cbn [attr_names flat_map]. apply in_or_app. now right.
  - intros bs a a' out H. cbn [write_field]. now apply bits_agree.
  - intros size bs a a' out H. cbn [write_field]. now apply bits_agree.
Qed.
Lemma write_fields_agree h fs a a' : same_attrs fs a a' -> forall out, write_fields h fs a out = write_fields h fs a' out.
Proof.
  intros H out. rewrite <- !write_group. apply (proj2 (write_agree_all h)). exact H.
Qed.
Lemma write_fields_app h fs1 fs2 a out : write_fields h (fs1 ++ fs2) a out = (do write_fields h fs1 a ;; write_fields h fs2 a) out.
Proof.
  revert out. induction fs1 as [|f fs1 IH]; intros out; cbn [app write_fields]; [reflexivity|]. unfold sbind in *.
  destruct (write_field h f a out) as [[u|e] s]; [|reflexivity]. apply IH.
Qed.

Theorem conservative h W m v enc : defined W m -> write_to_string h m v = Ok enc ->
  writes h W m v enc /\ forall z, sizeof m v = Ok z -> sizes W m v z.
Proof.
  intros D E. unfold write_to_string in E. destruct (write h m v []) as [[[]|e] out] eqn:Ew; [|discriminate]. inversion E; subst out.
  destruct (proj1 (same_all h W) m D) as (N & H). destruct (write_any_out h m v _ _ _ Ew) as (E1 & E2). cbn [app] in E1.
  split.
  - exists N. intros n Hn out. rewrite E1. exact (proj1 (H n Hn v out _ (E2 out))).
  - intros z Hz. exists N. intros n Hn. rewrite <- Hz. exact (proj1 (proj2 (H n Hn v _ _ Ew))).
Qed.
Theorem by_own_class h W B cB fsB a enc d : defined W (MStruct B cB fsB) -> write_to_string h (MStruct B cB fsB) (VObj B a) = Ok enc -> for_objects d ->
  writes h W d (VObj B a) enc.
Proof.
  intros D E F. destruct (proj1 (conservative h W _ _ _ D E)) as (N & H). exists N. intros n Hn out. rewrite <- (H n Hn out). destruct d; destruct F; reflexivity.
Qed.
Theorem size_by_selector h W B cB fsB a enc d : defined W (MStruct B cB fsB) -> fits false (MStruct B cB fsB) (VObj B a) ->
  write_to_string h (MStruct B cB fsB) (VObj B a) = Ok enc -> (match d with MSel _ _ _ | MFunSel _ _ _ => True | _ => False end) ->
  sizes W d (VObj B a) (zlen enc).
Proof.
  intros D Ft E F. unfold write_to_string in E. destruct (write h _ _ []) as [[[]|e] out] eqn:Ew; [|discriminate]. inversion E; subst out.
  pose proof (sizeof_exact h _ _ _ _ Ft Ew) as Z. change (zlen []) with 0 in Z. rewrite Z.sub_0_r in Z.
  destruct (proj1 (same_all h W) _ D) as (N & H). exists N. intros n Hn. destruct (H n Hn _ _ _ Ew) as (_ & _ & G). specialize (G I B a eq_refl).
  rewrite Z in G. destruct d; destruct F; exact G.
Qed.

Section Sub.
Variables (h : host) (W : world) (A B : name) (cA cB : option ctx) (fsA more : list field) (a a' : attrs).
Hypothesis HB : defined W (MStruct B cB (fsA ++ more)).
Hypothesis Ha : same_attrs fsA a a'.
Variables (encA enc : list Z).
Hypothesis EA : write_to_string h (MStruct A cA fsA) (VObj A a') = Ok encA.
Hypothesis EB : write_to_string h (MStruct B cB (fsA ++ more)) (VObj B a) = Ok enc.
Lemma part_written : write_fields h fsA a [] = (Ok tt, encA).
Proof.
  unfold write_to_string in EA. rewrite write_struct, String.eqb_refl in EA. rewrite (write_fields_agree h fsA a a' Ha).
  destruct (write_fields h fsA a' []) as [[[]|e] out]; [|discriminate]. now inversion EA.
Qed.
Lemma sub_prefix : exists extra, enc = encA ++ extra.
Proof.
  pose proof part_written as P. unfold write_to_string in EB. rewrite write_struct, String.eqb_refl in EB. rewrite write_fields_app in EB. unfold sbind in EB. rewrite P in EB.
  rewrite <- (write_group h more a) in EB. destruct (proj2 (write_appends_all h) (FGroup more) a) as (r & suf & S). rewrite S in EB.
  destruct r as [[]|e]; [|discriminate]. inversion EB. eauto.
Qed.
Lemma sub_size : defined W (MStruct A cA fsA) -> fits false (MStruct A cA fsA) (VObj A a) -> sizes W (MStruct A cA fsA) (VObj B a) (zlen encA).
Proof.
  intros HA F. pose proof part_written as P.
  assert (Ew : write h (MStruct A cA fsA) (VObj A a) [] = (Ok tt, encA)) by (rewrite write_struct, String.eqb_refl; exact P).
  pose proof (sizeof_exact h _ _ _ _ F Ew) as Z. change (zlen []) with 0 in Z. rewrite Z.sub_0_r in Z.
  destruct (proj1 (same_all h W) _ HA) as (N & H). exists N. intros n Hn. destruct (H n Hn _ _ _ Ew) as (_ & G & _). rewrite Z in G.
  unfold psize in *. rewrite dsize_struct in *. exact G.
Qed.
End Sub.

(** ** Arrays with a size in bytes *)
Lemma sum_array h W f el objs encs zs p :
  Forall2 (fun v e => writes h W el v e) objs encs -> Forall2 (fun v z => sizes W el v z) objs zs ->
  struct_pack_int h f (fold_left Z.add zs 0) = Ok p ->
  writes h W (MSumArr (MInt f) el) (VList objs) (p ++ List.concat encs).
Proof.
  intros Hw Hs Hp.
  assert (exists N, forall n, (N <= n)%nat -> rmap_list (dsize (obj_size W n) el) objs = Ok zs) as (N1 & H1).
  { clear - Hs. induction Hs as [|v z objs zs (N & H) _ (N' & IH)]; [exists 0%nat; reflexivity|]. exists (Nat.max N N'). intros n Hn. cbn [rmap_list].
    unfold psize in H. rewrite H by lia. cbn [rbind]. rewrite IH by lia. reflexivity. }
  assert (exists N, forall n, (N <= n)%nat -> forall out, sforeach objs (dwrite h (obj_write h W n) (obj_size W n) el) out = (Ok tt, out ++ List.concat encs)) as (N2 & H2).
  { clear - Hw. induction Hw as [|v e objs encs (N & H) _ (N' & IH)]; [exists 0%nat; intros; cbn; now rewrite app_nil_r|]. exists (Nat.max N N'). intros n Hn out.
    cbn [sforeach List.concat]. unfold sbind. unfold pwrite in H. rewrite H by lia. rewrite IH by lia. now rewrite app_assoc. }
  exists (Nat.max N1 N2). intros n Hn out. unfold pwrite. cbn [dwrite py_iter]. unfold sbind, slift. rewrite H1 by lia. cbn [write]. rewrite Hp. unfold out_write.
  rewrite H2 by lia. now rewrite app_assoc.
Qed.

(** ** Reading what a subclass wrote *)
Theorem read_part h A B cA cB fsA more c a a' enc : canon h true (MStruct A cA fsA) c (VObj A a') -> same_attrs fsA a a' ->
  write_to_string h (MStruct B cB (fsA ++ more)) (VObj B a) = Ok enc ->
  exists encA extra, enc = encA ++ extra /\ write_to_string h (MStruct A cA fsA) (VObj A a') = Ok encA
    /\ forall pre tail, read h (MStruct A cA fsA) c (SBytesIO (pre ++ enc ++ tail) (zlen pre))
         = (Ok (VObj A a'), SBytesIO (pre ++ enc ++ tail) (zlen pre + zlen encA)).
Proof.
  intros C Ha E. destruct (exact_consumption h _ c _ C) as (encA & Wr & Rd).
  assert (EA : write_to_string h (MStruct A cA fsA) (VObj A a') = Ok encA) by (unfold write_to_string; now rewrite Wr).
  destruct (sub_prefix h A B cA cB fsA more a a' Ha encA enc EA E) as (extra & ->). exists encA, extra. split; [reflexivity|]. split; [exact EA|].
  intros pre tail. rewrite <- app_assoc. apply Rd.
Qed.
(** A field of the declared class, holding an object of a subclass, followed by another field: the other field is read from
    the bytes that the subclass added. *)
Theorem read_after h O cO x y d dy my A B cA cB fsA more c a a' enc encA ey y' : x <> y ->
  (forall c, canon h true (MStruct A cA fsA) c (VObj A a')) -> (forall c, canon h true my c y') -> same_attrs fsA a a' ->
  write_to_string h (MStruct B cB (fsA ++ more)) (VObj B a) = Ok enc -> write_to_string h (MStruct A cA fsA) (VObj A a') = Ok encA ->
  write_to_string h my y' = Ok ey ->
  exists extra, enc = encA ++ extra /\ forall tail t, extra ++ tail = ey ++ t ->
    exists o, create_from_string h (MStruct O cO [FField x (MStruct A cA fsA) d; FField y my dy]) (enc ++ tail) c = Ok (VObj O o)
      /\ lookup o x = Some (VObj A a') /\ lookup o y = Some y'.
Proof.
  intros Hxy CA CY Ha E EA EY. destruct (sub_prefix h A B cA cB fsA more a a' Ha encA enc EA E) as (extra & ->). exists extra. split; [reflexivity|].
  intros tail t Ht. unfold create_from_string, stream_of. rewrite read_struct, read_fields_cons. unfold sbind at 1. rewrite read_field_field.
  set (a0 := new_attrs _ []). set (c1 := get_updated_context cO (VObj O a0) c).
  destruct (exact_consumption h _ c1 _ (CA c1)) as (e1 & W1 & R1).
  assert (e1 = encA) as -> by (unfold write_to_string in EA; rewrite W1 in EA; cbn [app] in EA; congruence).
  specialize (R1 [] (extra ++ tail)). cbn [app] in R1. change (zlen []) with 0 in R1. rewrite <- app_assoc. rewrite R1.
  rewrite read_fields_cons. unfold sbind at 1. rewrite read_field_field. set (a1 := set_attr a0 x (VObj A a')). set (c2 := get_updated_context cO (VObj O a1) c).
  destruct (exact_consumption h _ c2 _ (CY c2)) as (e2 & W2 & R2).
  assert (e2 = ey) as -> by (unfold write_to_string in EY; rewrite W2 in EY; cbn [app] in EY; congruence).
  specialize (R2 encA t). rewrite Ht, Z.add_0_l, R2. cbn [fst]. exists (set_attr a1 y y'). split; [reflexivity|]. split.
  - rewrite lookup_set_other by congruence. apply lookup_set_same.
  - apply lookup_set_same.
Qed.
Theorem sum_array_declared h W f A B cA cB fsA more objs parts p : defined W (MStruct A cA fsA) -> defined W (MStruct B cB (fsA ++ more)) ->
  Forall2 (fun a (e : list Z * list Z) => fits false (MStruct A cA fsA) (VObj A a) /\ write_to_string h (MStruct A cA fsA) (VObj A a) = Ok (fst e)
             /\ write_to_string h (MStruct B cB (fsA ++ more)) (VObj B a) = Ok (fst e ++ snd e)) objs parts ->
  struct_pack_int h f (fold_left Z.add (map (fun e => zlen (fst e)) parts) 0) = Ok p ->
  writes h W (MSumArr (MInt f) (MStruct A cA fsA)) (VList (map (VObj B) objs)) (p ++ List.concat (map (fun e => fst e ++ snd e) parts)).
Proof.
  intros HA HB H Hp. apply (sum_array h W f _ _ _ (map (fun e => zlen (fst e)) parts)); [| |exact Hp].
  - clear Hp. induction H as [|a e objs parts (F & E1 & E2) _ IH]; constructor; [|exact IH]. exact (by_own_class h W B cB (fsA ++ more) a _ (MStruct A cA fsA) HB E2 I).
  - clear Hp. induction H as [|a e objs parts (F & E1 & E2) _ IH]; constructor; [|exact IH].
    exact (sub_size h W A B cA fsA a a (fun n _ => eq_refl) (fst e) E1 HA F).
Qed.
Theorem sum_array_selector h W f choices func mm B cB fsB objs encs p : defined W (MStruct B cB fsB) ->
  Forall2 (fun a e => fits false (MStruct B cB fsB) (VObj B a) /\ write_to_string h (MStruct B cB fsB) (VObj B a) = Ok e) objs encs ->
  struct_pack_int h f (fold_left Z.add (map zlen encs) 0) = Ok p ->
  writes h W (MSumArr (MInt f) (MFunSel choices func mm)) (VList (map (VObj B) objs)) (p ++ List.concat encs).
Proof.
  intros HB H Hp. apply (sum_array h W f _ _ _ (map zlen encs)); [| |exact Hp].
  - clear Hp. induction H as [|a e objs parts (F & E) _ IH]; constructor; [|exact IH]. exact (by_own_class h W B cB fsB a _ (MFunSel choices func mm) HB E I).
  - clear Hp. induction H as [|a e objs parts (F & E) _ IH]; constructor; [|exact IH]. exact (size_by_selector h W B cB fsB a e (MFunSel choices func mm) HB F E I).
Qed.

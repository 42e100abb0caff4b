(** Construction of Struct objects: proofs. *)
From Verif Require Import Base IntCodec Stream MinMax Marshal MarshalInd FieldSpec FieldFacts StructInit StructInitSpec.
From Coq Require Import ZArith List Bool String Lia.
Import ListNotations.
Open Scope Z_scope.

Lemma set_same a n v : lookup a n = Some v -> set_attr a n v = a.
Proof.
  induction a as [|[k w] a IH]; cbn; [discriminate|]. destruct (String.eqb_spec k n) as [->|].
  - intros E. congruence.
  - intros E. now rewrite IH.
Qed.
Lemma lookup_without n m kw : lookup (without n kw) m = if String.eqb n m then None else lookup kw m.
Proof.
  unfold without. induction kw as [|[k v] kw IH]; cbn [filter lookup fst]; [now destruct (String.eqb n m)|].
  destruct (String.eqb_spec k n) as [->|D]; cbn [negb lookup].
  - rewrite IH. destruct (String.eqb_spec n m); auto.
  - rewrite IH. destruct (String.eqb_spec k m) as [->|], (String.eqb_spec n m) as [->|]; auto. congruence.
Qed.
Lemma lookup_none {A} (l : list (name * A)) n : lookup l n = None <-> ~ In n (map fst l).
Proof.
  induction l as [|[k v] l IH]; cbn; [tauto|]. destruct (String.eqb_spec k n) as [->|D]; [split; [discriminate|tauto]|].
  rewrite IH. tauto.
Qed.
Lemma lookup_some {A} (l : list (name * A)) n : In n (map fst l) -> exists v, lookup l n = Some v.
Proof. intros I. destruct (lookup l n) as [v|] eqn:E; eauto. apply lookup_none in E. tauto. Qed.

(** *** Taking the fields' arguments *)
Definition taken (kw : kwds) (st : attrs * kwds) : Prop := forall n,
  lookup (snd st) n = lookup kw n \/ (lookup (snd st) n = None /\ lookup (fst st) n = lookup kw n).
Definition names_gone (ns : list name) (st st' : attrs * kwds) : Prop := forall n,
  lookup (snd st') n = if in_dec String.string_dec n ns then None else lookup (snd st) n.

Lemma take_one kw st n d : taken kw st ->
  taken kw (take_field st n d) /\ fst (take_field st n d) = prepare_field kw (fst st) n d /\ names_gone [n] st (take_field st n d).
Proof.
  intros T. unfold take_field, prepare_field. specialize (T n) as Tn. destruct (lookup (snd st) n) as [v|] eqn:L.
  - assert (E : lookup kw n = Some v) by (destruct Tn as [E|[E _]]; congruence). rewrite E. split; [|split; [reflexivity|]].
    + intros m. cbn [fst snd]. rewrite lookup_without. destruct (String.eqb_spec n m) as [<-|D].
      * right. split; auto. now rewrite lookup_set_same.
      * rewrite lookup_set_other by exact D. destruct (T m); tauto.
    + intros m. cbn [snd]. rewrite lookup_without. destruct (String.eqb_spec n m) as [<-|D]; [destruct (in_dec String.string_dec n [n]) as [|X]; [auto|exfalso; apply X; now left]|]. destruct (in_dec String.string_dec m [n]) as [I|I]; auto; cbn in I; tauto.
  - assert (G : forall st', snd st' = snd st -> names_gone [n] st st').
    { intros st' E m. rewrite E. destruct (in_dec String.string_dec m [n]) as [I|]; auto. destruct I as [<-|[]]. exact L. }
    destruct Tn as [E|[_ E]].
    + rewrite <- E. destruct (lookup (fst st) n) as [w|] eqn:A; [auto|]. split; [|split; auto]. intros m. cbn [fst snd].
      destruct (String.eqb_spec n m) as [<-|D]; [left; congruence|]. rewrite lookup_set_other by exact D. apply T.
    + rewrite <- E. destruct (lookup (fst st) n) as [w|] eqn:A.
      * split; auto. split; auto. now rewrite set_same.
      * split; [|split; auto]. intros m. cbn [fst snd]. destruct (String.eqb_spec n m) as [<-|D]; [left; congruence|]. rewrite lookup_set_other by exact D. apply T.
Qed.

Lemma gone_nil st : names_gone [] st st.
Proof. intros n. now destruct (in_dec String.string_dec n []). Qed.
Lemma gone_app l1 l2 s1 s2 s3 : names_gone l1 s1 s2 -> names_gone l2 s2 s3 -> names_gone (l1 ++ l2) s1 s3.
Proof.
  intros G1 G2 n. rewrite (G2 n), (G1 n).
  destruct (in_dec String.string_dec n l2), (in_dec String.string_dec n l1), (in_dec String.string_dec n (l1 ++ l2)); auto; rewrite in_app_iff in *; tauto.
Qed.

Lemma take_bits kw bs : forall st, taken kw st ->
  let st' := fold_left (fun st b => match b with BField n _ d => take_field st n d | _ => st end) bs st in
  taken kw st'
  /\ fst st' = fold_left (fun a b => match b with BField n _ d => prepare_field kw a n d | _ => a end) bs (fst st)
  /\ names_gone (flat_map (fun b => match b with BField n _ _ => [n] | _ => [] end) bs) st st'.
Proof.
  induction bs as [|b bs IH]; intros st T; [cbn; auto using gone_nil|]. cbn [fold_left flat_map].
  destruct b as [n m d|m|n m k]; auto. destruct (take_one kw st n d T) as (T1 & E1 & G1).
  destruct (IH _ T1) as (T2 & E2 & G2). split; [exact T2|]. split; [now rewrite E2, E1|]. eapply gone_app; eauto.
Qed.

Definition takes (f : field) : Prop := forall kw st, taken kw st ->
  taken kw (take_fields st f) /\ fst (take_fields st f) = prepare_instance kw (fst st) f /\ names_gone (stored_names f) st (take_fields st f).
Lemma takes_list fs : Forall takes fs -> forall kw st, taken kw st ->
  taken kw (fold_left take_fields fs st) /\ fst (fold_left take_fields fs st) = fold_left (prepare_instance kw) fs (fst st)
  /\ names_gone (flat_map stored_names fs) st (fold_left take_fields fs st).
Proof.
  induction 1 as [|f fs Hf _ IH]; intros kw st T; [cbn; auto using gone_nil|]. cbn [fold_left flat_map].
  destruct (Hf kw st T) as (T1 & E1 & G1). destruct (IH kw _ T1) as (T2 & E2 & G2).
  split; [exact T2|]. split; [now rewrite E2, E1|]. eapply gone_app; eauto.
Qed.
Lemma take_all : forall f, takes f.
Proof.
  refine (proj2 (marshal_field_ind (fun _ => True) takes _ _ _ _ _ _ _ _ _ _ _ _ _ _ _ _ _ _ _ _ _ _)); auto; unfold takes; intros; cbn [take_fields prepare_instance stored_names].
  - now apply take_one.
  - auto using gone_nil.
  - auto using gone_nil.
  - now apply take_one.
  - now apply takes_list.
  - now apply take_bits.
  - now apply take_bits.
Qed.
Lemma take_new fs kw : let st := fold_left take_fields fs (class_attrs fs, kw) in
  fst st = new_attrs fs kw /\ forall n, lookup (snd st) n = if in_dec String.string_dec n (flat_map stored_names fs) then None else lookup kw n.
Proof.
  destruct (takes_list fs (proj2 (Forall_forall _ fs) (fun f _ => take_all f)) kw (class_attrs fs, kw)) as (_ & E & G).
  - intros n. now left.
  - split; [exact E|exact G].
Qed.

(** *** Attributes that are there stay *)
Lemma prepare_keeps kw n v : forall f a, lookup kw n = None -> lookup a n = Some v -> lookup (prepare_instance kw a f) n = Some v.
Proof.
  assert (P : forall a n' d, lookup kw n = None -> lookup a n = Some v -> lookup (prepare_field kw a n' d) n = Some v).
  { intros a n' d K L. unfold prepare_field. destruct (String.eqb_spec n' n) as [->|D].
    - now rewrite K, L.
    - destruct (lookup kw n'); [now rewrite lookup_set_other|]. destruct (lookup a n'); [auto|]. now rewrite lookup_set_other. }
  assert (B : forall bs a, lookup kw n = None -> lookup a n = Some v ->
     lookup (fold_left (fun a b => match b with BField n _ d => prepare_field kw a n d | _ => a end) bs a) n = Some v).
  { induction bs as [|b bs IH]; intros a K L; cbn; auto. destruct b; auto. }
  refine (proj2 (marshal_field_ind (fun _ => True) (fun f => forall a, lookup kw n = None -> lookup a n = Some v -> lookup (prepare_instance kw a f) n = Some v)
    _ _ _ _ _ _ _ _ _ _ _ _ _ _ _ _ _ _ _ _ _ _)); auto; intros; cbn [prepare_instance]; auto.
  revert a H1. induction H as [|f fs Hf _ IH]; intros a L; cbn; auto.
Qed.

Section Construct.
Variable fs : list field.

Lemma struct_init_keeps n v a kw : lookup kw n = None -> lookup a n = Some v -> lookup (fst (fold_left take_fields fs (a, kw))) n = Some v.
Proof.
  intros K L. destruct (takes_list fs (proj2 (Forall_forall _ fs) (fun f _ => take_all f)) kw (a, kw)) as (_ & E & _); [intros m; now left|].
  rewrite E. cbn [fst]. clear E. revert a L. induction fs as [|f l IH]; intros a L; cbn; auto. apply IH. now apply prepare_keeps.
Qed.

Lemma run_leaves n super : (forall args kw a v, lookup kw n = None -> lookup a n = Some v -> lookup (snd (super args kw a)) n = Some v) ->
  forall p, leaves n p -> forall a v, lookup a n = Some v -> lookup (snd (run_init fs super p a)) n = Some v.
Proof.
  intros S p Lv. induction Lv; intros a w L; cbn [run_init]; auto.
  - unfold assign_attr. destruct (lookup (class_attrs fs) n'); [destruct (py_eq _ _); auto|]. apply H1. now rewrite lookup_set_other.
  - apply lookup_none in H. specialize (S args kw a w H L). destruct (super args kw a) as [r a']. now apply H1.
Qed.

Lemma init_leaves n levels : Forall (level_leaves n) levels -> forall args kw a v,
  lookup kw n = None -> lookup a n = Some v -> lookup (snd (instance_init fs false levels args kw a)) n = Some v.
Proof.
  induction 1 as [|l up Hl _ IH]; intros args kw a v K L; cbn [instance_init snd]; [now apply struct_init_keeps|].
  cbn [fst snd]. destruct l as [ui|]; [|auto].
  destruct (bind_call _ _ _) as [b|e]; auto. apply run_leaves; auto.
Qed.

Lemma construct_leaves n v levels args kw : Forall (level_leaves n) levels -> field_name fs n ->
  lookup (new_attrs fs kw) n = Some v -> lookup (snd (construct fs levels args kw)) n = Some v.
Proof.
  intros Lv I L. unfold construct. destruct (take_new fs kw) as [E G].
  destruct levels as [|l up]; cbn [instance_init snd]; [now rewrite E|]. inversion Lv as [|? ? L1 L2]; subst.
  assert (K : lookup (snd (fold_left take_fields fs (class_attrs fs, kw))) n = None).
  { rewrite G. destruct (in_dec String.string_dec n _); [auto|contradiction]. }
  rewrite E. destruct l as [ui|].
  - destruct (bind_call _ _ _) as [b|e]; [|exact L]. apply run_leaves; [|apply L1|exact L]. intros. now apply init_leaves.
  - now apply init_leaves.
Qed.

(** *** No user code *)
Lemma prepare_twice : forall f kw, (forall n, In n (stored_names f) -> lookup kw n = None) -> forall a, (forall n, In n (stored_names f) -> lookup a n <> None) -> prepare_instance kw a f = a.
Proof.
  assert (P : forall kw a n d, lookup kw n = None -> lookup a n <> None -> prepare_field kw a n d = a).
  { intros kw a n d K L. unfold prepare_field. rewrite K. now destruct (lookup a n). }
  assert (B : forall kw bs a, (forall n, In n (flat_map (fun b => match b with BField n _ _ => [n] | _ => [] end) bs) -> lookup kw n = None) ->
    (forall n, In n (flat_map (fun b => match b with BField n _ _ => [n] | _ => [] end) bs) -> lookup a n <> None) ->
    fold_left (fun a b => match b with BField n _ d => prepare_field kw a n d | _ => a end) bs a = a).
  { intros kw bs a. induction bs as [|b bs IH]; intros K L; cbn; auto. destruct b; cbn in *; auto. rewrite P by auto. apply IH; auto. }
  refine (proj2 (marshal_field_ind (fun _ => True) (fun f => forall kw, (forall n, In n (stored_names f) -> lookup kw n = None) -> forall a, (forall n, In n (stored_names f) -> lookup a n <> None) -> prepare_instance kw a f = a)
    _ _ _ _ _ _ _ _ _ _ _ _ _ _ _ _ _ _ _ _ _ _)); auto; intros; cbn [prepare_instance stored_names] in *; auto.
  - apply P; [apply H0|apply H1]; now left.
  - apply P; [apply H0|apply H1]; now left.
  - induction H as [|f l Hf _ IH]; cbn; auto. cbn in *. rewrite Hf; auto; [apply IH|..]; intros; try apply H0; try apply H1; apply in_or_app; auto.
Qed.
Lemma new_has kw n : field_name fs n -> lookup (new_attrs fs kw) n <> None.
Proof.
  unfold field_name, new_attrs. generalize (class_attrs fs). revert n.
  assert (P : forall a n' d n, n' = n \/ lookup a n <> None -> lookup (prepare_field kw a n' d) n <> None).
  { intros a n' d n H. unfold prepare_field. destruct (String.eqb_spec n' n) as [->|D].
    - destruct (lookup kw n); [rewrite lookup_set_same; discriminate|]. destruct (lookup a n) eqn:E; [now rewrite E|rewrite lookup_set_same; discriminate].
    - destruct H as [|H]; [tauto|]. destruct (lookup kw n'); [now rewrite lookup_set_other|]. destruct (lookup a n'); [auto|now rewrite lookup_set_other]. }
  assert (B : forall bs a n, In n (flat_map (fun b => match b with BField n _ _ => [n] | _ => [] end) bs) \/ lookup a n <> None ->
    lookup (fold_left (fun a b => match b with BField n _ d => prepare_field kw a n d | _ => a end) bs a) n <> None).
  { induction bs as [|b bs IH]; intros a n H; cbn; [cbn in H; tauto|]. apply IH. cbn in H. rewrite in_app_iff in H. destruct b; cbn in H; auto; [|tauto|tauto].
    destruct H as [[[H|[]]|H]|H]; auto; right; apply P; auto. }
  assert (F : forall f a n, In n (stored_names f) \/ lookup a n <> None -> lookup (prepare_instance kw a f) n <> None).
  { refine (proj2 (marshal_field_ind (fun _ => True) (fun f => forall a n, In n (stored_names f) \/ lookup a n <> None -> lookup (prepare_instance kw a f) n <> None)
      _ _ _ _ _ _ _ _ _ _ _ _ _ _ _ _ _ _ _ _ _ _)); auto; intros; cbn [prepare_instance stored_names In] in *; auto; try tauto.
    - apply P. tauto.
    - apply P. tauto.
    - revert a H0. induction H as [|f l Hf _ IH]; intros a H0; cbn in *; [tauto|]. rewrite in_app_iff in H0. apply IH. destruct H0 as [[|]|]; auto. }
  induction fs as [|f l IH]; intros n a I; cbn in *; [easy|]. apply in_app_or in I as [I|I]; [|now apply IH].
  assert (G : lookup (prepare_instance kw a f) n <> None) by auto. clear - G F. revert G. generalize (prepare_instance kw a f). induction l as [|g l IH]; intros b G; cbn; auto.
Qed.

Lemma init_none levels : Forall (fun l => l = None) levels -> forall args kw a,
  (forall n, field_name fs n -> lookup kw n = None) -> (forall n, field_name fs n -> lookup a n <> None) ->
  instance_init fs false levels args kw a = (Ok tt, a).
Proof.
  induction 1 as [|l up -> _ IH]; intros args kw a K L; cbn [instance_init]; [|now apply IH].
  destruct (takes_list fs (proj2 (Forall_forall _ fs) (fun f _ => take_all f)) kw (a, kw)) as (_ & E & _); [intros m; now left|].
  f_equal. etransitivity; [exact E|]. exact (prepare_twice (FGroup fs) kw K a L).
Qed.
Lemma construct_plain levels args kw : Forall (fun l => l = None) levels -> construct fs levels args kw = (Ok tt, new_attrs fs kw).
Proof.
  intros F. unfold construct. destruct (take_new fs kw) as [E G]. destruct levels as [|l up]; cbn [instance_init]; [now rewrite E|].
  inversion F as [|? ? -> F']; subst. rewrite E. apply init_none; auto.
  - intros n I. rewrite G. destruct (in_dec String.string_dec n _); [auto|contradiction].
  - intros n. apply new_has.
Qed.

(** *** What the user's function is called with *)
Lemma put_back_lookup p orig kw n : lookup (put_back p orig kw) n = if in_dec String.string_dec n (map fst (p_pos p)) then match lookup orig n with Some v => Some v | None => lookup kw n end else lookup kw n.
Proof.
  unfold put_back. revert kw. induction (map fst (p_pos p)) as [|m l IH]; intros kw; cbn [fold_left]; [now destruct (in_dec String.string_dec n [])|].
  rewrite IH. destruct (String.eqb_spec m n) as [->|D].
  - destruct (in_dec String.string_dec n (n :: l)) as [_|N]; [|exfalso; apply N; now left].
    destruct (lookup orig n) as [v|] eqn:E; [|now destruct (in_dec String.string_dec n l)]. unfold put. rewrite lookup_set_same. now destruct (in_dec String.string_dec n l).
  - destruct (lookup orig m) as [v|]; [unfold put; rewrite lookup_set_other by exact D|];
      (destruct (in_dec String.string_dec n l) as [I|I], (in_dec String.string_dec n (m :: l)) as [J|J]; auto; exfalso; [apply J; now right|destruct J; tauto]).
Qed.

Lemma construct_user ui up args kw : exists kw',
  (forall n, lookup kw' n = if in_dec String.string_dec n (flat_map stored_names fs)
                            then if in_dec String.string_dec n (map fst (p_pos (ui_params ui))) then lookup kw n else None
                            else lookup kw n)
  /\ construct fs (Some ui :: up) args kw
     = match bind_call (ui_params ui) args kw' with
       | Ok b => run_init fs (instance_init fs false up) (ui_body ui b) (new_attrs fs kw)
       | Err e => (Err e, new_attrs fs kw)
       end.
Proof.
  destruct (take_new fs kw) as [E G]. exists (put_back (ui_params ui) kw (snd (fold_left take_fields fs (class_attrs fs, kw)))). split.
  - intros n. rewrite put_back_lookup, G. destruct (in_dec String.string_dec n (flat_map stored_names fs)), (in_dec String.string_dec n (map fst (p_pos (ui_params ui)))); auto; now destruct (lookup kw n).
  - unfold construct. cbn [instance_init]. now rewrite E.
Qed.

(** *** Binding keyword arguments *)
Lemma bind_kw ps : forall kw, NoDup (map fst ps) ->
  match bind_pos ps [] kw with
  | Ok (vars, rest, kw') =>
      rest = [] /\ map fst vars = map fst ps
      /\ (forall n, lookup kw' n = if in_dec String.string_dec n (map fst ps) then None else lookup kw n)
      /\ (forall n d, In (n, d) ps -> exists v, In (n, v) vars /\ match lookup kw n with Some w => v = w | None => d = Some v end)
  | Err e => e = TypeError /\ exists n, In (n, None) ps /\ lookup kw n = None
  end.
Proof.
  induction ps as [|[n d] ps IH]; intros kw N; cbn [bind_pos].
  - split; [auto|]. split; [auto|]. split; [|easy]. intros n. cbn. auto.
  - cbn [map fst] in N. inversion N as [|? ? N1 N2]; subst. specialize (IH (without n kw) N2).
    assert (LW : forall m, In m (map fst ps) -> lookup (without n kw) m = lookup kw m).
    { intros m I. rewrite lookup_without. destruct (String.eqb_spec n m) as [->|]; [contradiction|auto]. }
    assert (LP : forall m d', In (m, d') ps -> lookup (without n kw) m = lookup kw m).
    { intros m d' I. apply LW. now apply (in_map fst) in I. }
    set (x := match lookup kw n with Some v => Ok v | None => match d with Some v => Ok v | None => Err TypeError end end).
    assert (HX : match x with Ok v => match lookup kw n with Some w => v = w | None => d = Some v end | Err e => e = TypeError /\ d = None /\ lookup kw n = None end).
    { unfold x. destruct (lookup kw n); auto. now destruct d. }
    destruct x as [v|e]; cbn [rbind].
    + destruct (bind_pos ps [] (without n kw)) as [[[vars rest] kw']|e]; cbn [rbind fst snd].
      * destruct IH as (-> & M & L & V). split; auto. split; [cbn; congruence|]. split.
        -- intros m. rewrite L, lookup_without. cbn [map fst].
           destruct (in_dec String.string_dec m (map fst ps)) as [I|I], (in_dec String.string_dec m (n :: map fst ps)) as [J|J], (String.eqb_spec n m) as [->|D]; auto; exfalso; cbn in J; tauto.
        -- intros m d' [Q|I].
           ++ assert (m = n) by congruence. assert (d' = d) by congruence. subst. exists v. split; [now left|exact HX].
           ++ destruct (V m d' I) as (w & Iw & W). exists w. split; [now right|]. now rewrite (LP m d' I) in W.
      * destruct IH as (-> & m & Im & Lm). split; auto. exists m. split; [now right|]. now rewrite (LP m None Im) in Lm.
    + destruct HX as (-> & -> & L). split; auto. exists n. split; [now left|auto].
Qed.

Lemma empty_lookup (kw : kwds) : kw = [] <-> forall n, lookup kw n = None.
Proof.
  split; [now intros ->|]. destruct kw as [|[n v] kw]; auto. intros H. specialize (H n). cbn in H. rewrite String.eqb_refl in H. discriminate.
Qed.

Lemma bind_call_kw p kw : NoDup (map fst (p_pos p) ++ map fst (p_kwonly p)) -> p_varkw p = false ->
  (exists b, bind_call p [] kw = Ok b
             /\ b_args b = [] /\ b_kwargs b = []
             /\ forall n d, In (n, d) (p_pos p ++ p_kwonly p) -> exists v, In (n, v) (b_vars b) /\ match lookup kw n with Some w => v = w | None => d = Some v end)
  /\ (forall n, lookup kw n <> None -> In n (map fst (p_pos p) ++ map fst (p_kwonly p)))
  /\ (forall n, In (n, None) (p_pos p ++ p_kwonly p) -> lookup kw n <> None)
  \/ bind_call p [] kw = Err TypeError
     /\ ((exists n, lookup kw n <> None /\ ~ In n (map fst (p_pos p) ++ map fst (p_kwonly p)))
         \/ exists n, In (n, None) (p_pos p ++ p_kwonly p) /\ lookup kw n = None).
Proof.
  intros N VK. assert (N1 : NoDup (map fst (p_pos p))) by (clear - N; induction (map fst (p_pos p)); [constructor|]; cbn in N; inversion N; subst; constructor; [rewrite in_app_iff in *; tauto|auto]).
  assert (N2 : NoDup (map fst (p_kwonly p))) by (clear - N; induction (map fst (p_pos p)); [auto|]; cbn in N; inversion N; subst; auto).
  assert (DJ : forall n, In n (map fst (p_kwonly p)) -> ~ In n (map fst (p_pos p))).
  { clear - N. intros n I J. induction (map fst (p_pos p)) as [|x l IH]; [easy|]. cbn in N. inversion N; subst. destruct J as [->|J]; [rewrite in_app_iff in *; tauto|auto]. }
  unfold bind_call. pose proof (bind_kw (p_pos p) kw N1) as B1. destruct (bind_pos (p_pos p) [] kw) as [[[vars rest] kw1]|e]; cbn [rbind fst snd].
  2:{ destruct B1 as (-> & n & I & L). right. split; auto. right. exists n. split; [apply in_or_app; now left|auto]. }
  destruct B1 as (-> & M1 & L1 & V1). pose proof (bind_kw (p_kwonly p) kw1 N2) as B2. destruct (bind_pos (p_kwonly p) [] kw1) as [[[vars2 rest2] kw2]|e]; cbn [rbind fst snd].
  2:{ destruct B2 as (-> & n & I & L). right. split; auto. right. exists n. split; [apply in_or_app; now right|].
      rewrite L1 in L. destruct (in_dec String.string_dec n (map fst (p_pos p))) as [J|]; [|auto]. exfalso. apply (DJ n); auto. now apply (in_map fst) in I. }
  destruct B2 as (-> & M2 & L2 & V2). rewrite VK. rewrite andb_false_r. cbn [negb andb].
  assert (LL : forall n, lookup kw2 n = if in_dec String.string_dec n (map fst (p_pos p) ++ map fst (p_kwonly p)) then None else lookup kw n).
  { intros n. rewrite L2, L1. destruct (in_dec String.string_dec n (map fst (p_kwonly p))), (in_dec String.string_dec n (map fst (p_pos p))), (in_dec String.string_dec n (map fst (p_pos p) ++ map fst (p_kwonly p))); auto; rewrite in_app_iff in *; tauto. }
  destruct kw2 as [|[n v] kw2]; cbn [negb].
  - left. split; [|split].
    + eexists. split; [reflexivity|]. cbn. split; auto. split; auto. intros n d I. apply in_app_or in I as [I|I].
      * destruct (V1 n d I) as (v & Iv & W). exists v. split; [apply in_or_app; now left|auto].
      * destruct (V2 n d I) as (v & Iv & W). exists v. split; [apply in_or_app; now right|].
        rewrite L1 in W. destruct (in_dec String.string_dec n (map fst (p_pos p))) as [J|]; [|auto]. exfalso. apply (DJ n); auto. now apply (in_map fst) in I.
    + intros n H. specialize (LL n). cbn in LL. destruct (in_dec String.string_dec n _) in LL; auto. congruence.
    + intros n I. apply in_app_or in I as [I|I].
      * destruct (V1 n None I) as (v & _ & W). now destruct (lookup kw n).
      * destruct (V2 n None I) as (v & _ & W). rewrite L1 in W. destruct (in_dec String.string_dec n (map fst (p_pos p))) as [J|]; [|now destruct (lookup kw n)]. exfalso. apply (DJ n); auto. now apply (in_map fst) in I.
  - right. split; auto. left. exists n. specialize (LL n). cbn in LL. rewrite String.eqb_refl in LL. destruct (in_dec String.string_dec n _) in LL; [discriminate|]. split; [congruence|auto].
Qed.

Lemma construct_fits ui up kw : NoDup (map fst (p_pos (ui_params ui)) ++ map fst (p_kwonly (ui_params ui))) -> p_varkw (ui_params ui) = false ->
  (call_fits fs (ui_params ui) kw ->
     exists b, construct fs (Some ui :: up) [] kw = run_init fs (instance_init fs false up) (ui_body ui b) (new_attrs fs kw)
       /\ b_args b = [] /\ b_kwargs b = []
       /\ (forall n d, In (n, d) (p_pos (ui_params ui)) -> exists v, In (n, v) (b_vars b) /\ match lookup kw n with Some w => v = w | None => d = Some v end)
       /\ (forall n d, In (n, d) (p_kwonly (ui_params ui)) -> ~ field_name fs n -> exists v, In (n, v) (b_vars b) /\ match lookup kw n with Some w => v = w | None => d = Some v end))
  /\ (~ call_fits fs (ui_params ui) kw -> construct fs (Some ui :: up) [] kw = (Err TypeError, new_attrs fs kw)).
Proof.
  intros N VK. destruct (construct_user ui up [] kw) as (kw' & L & E). rewrite E. clear E. set (p := ui_params ui) in *.
  assert (KO : forall n, In n (map fst (p_kwonly p)) -> ~ In n (map fst (p_pos p))).
  { clear - N. intros n I J. induction (map fst (p_pos p)) as [|x l IH]; [easy|]. cbn in N. inversion N; subst. destruct J as [->|J]; [rewrite in_app_iff in *; tauto|auto]. }
  destruct (bind_call_kw p kw' N VK) as [((b & -> & A & K & V) & C1 & C2)|[-> C]].
  - split.
    + intros _. exists b. split; [reflexivity|]. split; auto. split; auto. split.
      * intros n d I. destruct (V n d (in_or_app _ _ _ (or_introl I))) as (v & Iv & W). exists v. split; auto.
        rewrite L in W. apply (in_map fst) in I. cbn in I. destruct (in_dec String.string_dec n (flat_map stored_names fs)); auto. destruct (in_dec String.string_dec n (map fst (p_pos p))); [auto|contradiction].
      * intros n d I NF. destruct (V n d (in_or_app _ _ _ (or_intror I))) as (v & Iv & W). exists v. split; auto.
        rewrite L in W. destruct (in_dec String.string_dec n (flat_map stored_names fs)); [contradiction|auto].
    + intros NC. exfalso. apply NC. split; [|split].
      * intros n I. destruct (in_dec String.string_dec n (flat_map stored_names fs)) as [|NF]; [now left|]. right.
        specialize (C1 n). rewrite L in C1. destruct (in_dec String.string_dec n (flat_map stored_names fs)) as [J|_]; [contradiction|].
        apply in_app_or, C1. destruct (lookup_some kw n I) as (v & ->). discriminate.
      * intros n I. specialize (C2 n (in_or_app _ _ _ (or_introl I))). rewrite L in C2.
        destruct (in_dec String.string_dec n (map fst kw)); auto. exfalso. apply C2. apply lookup_none in n0. rewrite n0. destruct (in_dec String.string_dec n (flat_map stored_names fs)), (in_dec String.string_dec n (map fst (p_pos p))); auto.
      * intros n I. specialize (C2 n (in_or_app _ _ _ (or_intror I))). rewrite L in C2. pose proof I as I'. apply (in_map fst) in I'. cbn in I'. apply KO in I'.
        destruct (in_dec String.string_dec n (flat_map stored_names fs)).
        -- destruct (in_dec String.string_dec n (map fst (p_pos p))); [contradiction|congruence].
        -- split; auto. destruct (in_dec String.string_dec n (map fst kw)) as [|X]; auto. apply lookup_none in X. congruence.
  - split; auto. intros (F1 & F2 & F3). exfalso. destruct C as [(n & H & NI)|(n & I & H)]; rewrite L in H.
    + rewrite in_app_iff in NI. destruct (in_dec String.string_dec n (flat_map stored_names fs)) as [J|J].
      * destruct (in_dec String.string_dec n (map fst (p_pos p))); [tauto|congruence].
      * destruct (lookup kw n) eqn:Ek; [|congruence]. destruct (F1 n); [|contradiction|tauto].
        destruct (in_dec String.string_dec n (map fst kw)) as [|X]; auto. apply lookup_none in X. congruence.
    + apply in_app_or in I as [I|I].
      * destruct (lookup_some kw n (F2 n I)) as (v & Lv). apply (in_map fst) in I. cbn in I. destruct (in_dec String.string_dec n (flat_map stored_names fs)); [|congruence]. destruct (in_dec String.string_dec n (map fst (p_pos p))); [congruence|contradiction].
      * destruct (F3 n I) as [Ik NF]. destruct (lookup_some kw n Ik) as (v & Lv). destruct (in_dec String.string_dec n (flat_map stored_names fs)); [contradiction|congruence].
Qed.

(** *** A subclass takes the arguments away from the base class *)
Lemma bind_missing ps : forall kw n, In (n, None) ps -> lookup kw n = None -> bind_pos ps [] kw = Err TypeError.
Proof.
  induction ps as [|[m d] ps IH]; intros kw n I L; [easy|]. cbn [bind_pos]. destruct I as [E|I].
  - assert (m = n) by congruence. assert (d = None) by congruence. subst. now rewrite L.
  - assert (X : lookup (without m kw) n = None) by (rewrite lookup_without; now destruct (String.eqb m n)).
    rewrite (IH _ n I X). destruct (lookup kw m); [|destruct d]; reflexivity.
Qed.
Lemma construct_inherited ui up kw n : In (n, None) (p_pos (ui_params ui)) -> field_name fs n ->
  construct fs (None :: Some ui :: up) [] kw = (Err TypeError, new_attrs fs kw).
Proof.
  intros I F. destruct (take_new fs kw) as [E G]. unfold construct. cbn [instance_init fst snd]. rewrite E.
  set (kw1 := snd (fold_left take_fields fs (class_attrs fs, kw))) in *.
  assert (K : lookup (put_back (ui_params ui) kw1 kw1) n = None).
  { rewrite put_back_lookup, G. destruct (in_dec String.string_dec n (flat_map stored_names fs)) as [_|NF]; [|contradiction]. now destruct (in_dec String.string_dec n _). }
  unfold bind_call. now rewrite (bind_missing _ _ n I K).
Qed.

(** *** Reading *)
Lemma create_plain h cls cctx levels c s : Forall (fun l => l = None) levels ->
  create fs h cls cctx levels c s = read h (MStruct cls cctx fs) c s.
Proof. intros F. unfold create. rewrite construct_plain by exact F. now rewrite read_struct. Qed.
Lemma create_needs_argument h cls cctx ui up c s n : In (n, None) (p_pos (ui_params ui)) ->
  create fs h cls cctx (Some ui :: up) c s = (Err TypeError, s).
Proof.
  intros I. unfold create. destruct (construct_user ui up [] []) as (kw' & L & ->).
  assert (K : lookup kw' n = None) by (rewrite L; destruct (in_dec String.string_dec n _); auto; now destruct (in_dec String.string_dec n _)).
  unfold bind_call. now rewrite (bind_missing _ _ n I K).
Qed.
End Construct.

(** *** The attributes of a new object *)
Lemma new_given fs kw n v : field_name fs n -> lookup kw n = Some v -> lookup (new_attrs fs kw) n = Some v.
Proof.
  intros F K. unfold new_attrs.
  assert (P : forall a n' d, n' = n \/ lookup a n = Some v -> lookup (prepare_field kw a n' d) n = Some v).
  { intros a n' d H. unfold prepare_field. destruct (String.eqb_spec n' n) as [->|D].
    - rewrite K. apply lookup_set_same.
    - destruct H as [|H]; [tauto|]. destruct (lookup kw n'); [now rewrite lookup_set_other|]. destruct (lookup a n'); [auto|now rewrite lookup_set_other]. }
  assert (B : forall bs a, In n (flat_map (fun b => match b with BField n _ _ => [n] | _ => [] end) bs) \/ lookup a n = Some v ->
    lookup (fold_left (fun a b => match b with BField n _ d => prepare_field kw a n d | _ => a end) bs a) n = Some v).
  { induction bs as [|b bs IH]; intros a H; cbn; [cbn in H; tauto|]. apply IH. cbn in H. rewrite in_app_iff in H. destruct b; cbn in H; auto; [|tauto|tauto].
    destruct H as [[[H|[]]|H]|H]; auto; right; apply P; auto. }
  assert (Q : forall f a, In n (stored_names f) \/ lookup a n = Some v -> lookup (prepare_instance kw a f) n = Some v).
  { refine (proj2 (marshal_field_ind (fun _ => True) (fun f => forall a, In n (stored_names f) \/ lookup a n = Some v -> lookup (prepare_instance kw a f) n = Some v)
      _ _ _ _ _ _ _ _ _ _ _ _ _ _ _ _ _ _ _ _ _ _)); auto; intros; cbn [prepare_instance stored_names In] in *; auto; try tauto.
    - apply P. tauto.
    - apply P. tauto.
    - revert a H0. induction H as [|f l Hf _ IH]; intros a H0; cbn in *; [tauto|]. rewrite in_app_iff in H0. apply IH. destruct H0 as [[|]|]; auto. }
  specialize (Q (FGroup fs) (class_attrs fs)). apply Q. now left.
Qed.

Lemma defaults_names : forall f, map fst (stored_defaults f) = stored_names f.
Proof.
  assert (B : forall bs, map fst (flat_map (fun b => match b with BField n _ d => [(n, d)] | _ => [] end) bs) = flat_map (fun b => match b with BField n _ _ => [n] | _ => [] end) bs).
  { induction bs as [|b bs IH]; cbn; auto. destruct b; cbn; congruence. }
  refine (proj2 (marshal_field_ind (fun _ => True) (fun f => map fst (stored_defaults f) = stored_names f)
      _ _ _ _ _ _ _ _ _ _ _ _ _ _ _ _ _ _ _ _ _ _)); auto; intros; cbn [stored_defaults stored_names]; auto.
  induction H as [|f l Hf _ IH]; cbn; auto. rewrite map_app. congruence.
Qed.
Lemma nodup_unique (l : list (name * value)) n d d' : NoDup (map fst l) -> In (n, d) l -> In (n, d') l -> d = d'.
Proof.
  induction l as [|[k v] l IH]; [easy|]. cbn. intros N. inversion N as [|? ? N1 N2]; subst. intros [E|I] [E'|I']; try congruence.
  - exfalso. apply N1. assert (k = n) by congruence. subst. now apply (in_map fst) in I'.
  - exfalso. apply N1. assert (k = n) by congruence. subst. now apply (in_map fst) in I.
  - auto.
Qed.
Lemma new_default fs kw n d : NoDup (flat_map stored_names fs) -> ~ In n (map fst (class_attrs fs)) -> In (n, d) (flat_map stored_defaults fs) ->
  lookup kw n = None -> lookup (new_attrs fs kw) n = Some d.
Proof.
  intros N C I K.
  assert (N' : NoDup (map fst (stored_defaults (FGroup fs)))) by (rewrite defaults_names; exact N).
  assert (U : forall d', In (n, d') (stored_defaults (FGroup fs)) -> d' = d) by (intros d' I'; eapply nodup_unique; eauto).
  assert (P : forall a n' d', (n' = n -> d' = d) -> lookup a n = None \/ lookup a n = Some d -> lookup (prepare_field kw a n' d') n = None \/ lookup (prepare_field kw a n' d') n = Some d).
  { intros a n' d' E H. unfold prepare_field. destruct (String.eqb_spec n' n) as [->|D].
    - rewrite K. destruct H as [H|H]; rewrite H; [right|now right]. rewrite lookup_set_same, E; auto.
    - destruct (lookup kw n'); [now rewrite lookup_set_other|]. destruct (lookup a n'); [auto|now rewrite lookup_set_other]. }
  assert (B : forall bs, (forall d', In (n, d') (flat_map (fun b => match b with BField n _ d => [(n, d)] | _ => [] end) bs) -> d' = d) -> forall a, lookup a n = None \/ lookup a n = Some d ->
    lookup (fold_left (fun a b => match b with BField n _ d => prepare_field kw a n d | _ => a end) bs a) n = None
    \/ lookup (fold_left (fun a b => match b with BField n _ d => prepare_field kw a n d | _ => a end) bs a) n = Some d).
  { induction bs as [|b bs IH]; intros E a H; cbn; auto. apply IH.
    - intros d' I'. apply E. cbn. apply in_or_app. now right.
    - destruct b; auto. apply P; auto. intros ->. apply E. cbn. now left. }
  assert (Q : forall f, (forall d', In (n, d') (stored_defaults f) -> d' = d) -> forall a, lookup a n = None \/ lookup a n = Some d ->
     lookup (prepare_instance kw a f) n = None \/ lookup (prepare_instance kw a f) n = Some d).
  { refine (proj2 (marshal_field_ind (fun _ => True) (fun f => (forall d', In (n, d') (stored_defaults f) -> d' = d) -> forall a, lookup a n = None \/ lookup a n = Some d ->
     lookup (prepare_instance kw a f) n = None \/ lookup (prepare_instance kw a f) n = Some d)
      _ _ _ _ _ _ _ _ _ _ _ _ _ _ _ _ _ _ _ _ _ _)); auto; intros; cbn [prepare_instance stored_defaults] in *; auto.
    - apply P; auto. intros ->. apply H0. now left.
    - apply P; auto. intros ->. apply H0. now left.
    - revert a H1. induction H as [|f l Hf _ IH]; intros a H1; cbn; auto. cbn in H0. apply IH; [intros; apply H0, in_or_app; now right|].
      apply Hf; auto. intros; apply H0, in_or_app; now left. }
  destruct (Q (FGroup fs) U (class_attrs fs)) as [E|E]; [left; now apply lookup_none| |exact E].
  exfalso. apply (new_has fs kw n); [|exact E]. unfold field_name. change (flat_map stored_names fs) with (stored_names (FGroup fs)). rewrite <- defaults_names. now apply (in_map fst) in I.
Qed.

(** *** Reading touches the fields only *)
Lemma read_bits_other bs n : ~ In n (flat_map (fun b => match b with BField n _ _ => [n] | _ => [] end) bs) -> forall b a r b' a',
  sforeach bs read_bitfield (b, a) = (r, (b', a')) -> lookup a' n = lookup a n.
Proof.
  induction bs as [|f bs IH]; intros N b a r b' a' E; cbn in E; [unfold sret in E; congruence|].
  cbn in N. rewrite in_app_iff in N. unfold sbind in E. destruct (read_bitfield f (b, a)) as [[u1|] [b1 a1]] eqn:E1.
  - rewrite (IH (fun H => N (or_intror H)) _ _ _ _ _ E). unfold read_bitfield in E1. cbn [fst snd] in E1.
    destruct (bm_read (bf_marshal f) b) as [[v|] b2]; [|discriminate]. destruct f as [n' m d|m|n' m k].
    + assert (a1 = set_attr a n' v) by congruence. subst. apply lookup_set_other. intros ->. apply N. left. now left.
    + congruence.
    + destruct (py_eq v k); congruence.
  - assert (a1 = a') by congruence. subst. unfold read_bitfield in E1. cbn [fst snd] in E1.
    destruct (bm_read (bf_marshal f) b) as [[v|] b2]; [destruct f; try discriminate; [destruct (py_eq v v0); congruence]|congruence].
Qed.
Lemma container_other size bs n : ~ In n (flat_map (fun b => match b with BField n _ _ => [n] | _ => [] end) bs) -> forall s a r s' a',
  read_bit_container size bs (s, a) = (r, (s', a')) -> lookup a' n = lookup a n.
Proof.
  intros N s a r s' a' E. unfold read_bit_container, sbind, on_stream in E. cbn [fst snd] in E. destruct (sread size s) as [[data|] s1]; [|congruence].
  cbn [fst snd] in E. destruct (sforeach bs read_bitfield _) as [r1 [b1 a1]] eqn:L. assert (a1 = a') by congruence. subst. eapply read_bits_other; eauto.
Qed.
Definition reads_own (h : host) (f : field) : Prop := forall n, ~ In n (stored_names f) -> forall cls cctx c s a r s' a',
  read_field h cls cctx f c (s, a) = (r, (s', a')) -> lookup a' n = lookup a n.
Lemma read_fields_other h fs : Forall (reads_own h) fs -> forall n, ~ In n (flat_map stored_names fs) -> forall cls cctx c s a r s' a',
  read_fields h cls cctx fs c (s, a) = (r, (s', a')) -> lookup a' n = lookup a n.
Proof.
  induction 1 as [|f fs Hf _ IH]; intros n N cls cctx c s a r s' a' E.
  - change (read_fields h cls cctx [] c (s, a)) with (@Ok unit tt, (s, a)) in E. congruence.
  - cbn in N. rewrite in_app_iff in N. rewrite read_fields_cons in E. unfold sbind in E.
    destruct (read_field h cls cctx f c (s, a)) as [[u|] [s1 a1]] eqn:E1.
    + rewrite (IH n (fun H => N (or_intror H)) _ _ _ _ _ _ _ _ E). eapply Hf; eauto.
    + assert (a1 = a') by congruence. subst. eapply Hf; eauto.
Qed.
Lemma read_own h : forall f, reads_own h f.
Proof.
  refine (proj2 (marshal_field_ind (fun _ => True) (reads_own h) _ _ _ _ _ _ _ _ _ _ _ _ _ _ _ _ _ _ _ _ _ _)); auto; unfold reads_own; intros.
  - rewrite read_field_field in H1. destruct (read h m _ s) as [[v|] s1]; [|congruence].
    assert (a' = set_attr a n v) by congruence. subst. apply lookup_set_other. intros ->. apply H0. now left.
  - rewrite read_field_anon in H1. destruct (read h m _ s) as [[v|] s1]; congruence.
  - rewrite read_field_const in H1. destruct (read h m _ s) as [[v|] s1]; congruence.
  - rewrite read_field_opt in H1. destruct (run_rprog _ s) as [[[]|] s1]; try congruence. destruct (read h m _ s1) as [[v|] s2]; [|congruence].
    assert (a' = set_attr a n v) by congruence. subst. apply lookup_set_other. intros ->. apply H0. now left.
  - rewrite read_group in H1. eapply read_fields_other; eauto.
  - rewrite read_field_bits in H0. eapply container_other; eauto.
  - rewrite read_field_posbits in H0. eapply container_other; eauto.
Qed.
Lemma create_keeps fs h cls cctx levels c s v s' : create fs h cls cctx levels c s = (Ok v, s') ->
  exists a a', construct fs levels [] [] = (Ok tt, a) /\ v = VObj cls a' /\ forall n, ~ field_name fs n -> lookup a' n = lookup a n.
Proof.
  unfold create. destruct (construct fs levels [] []) as [[[]|] a]; [|discriminate].
  destruct (read_fields h cls cctx fs c (s, a)) as [[u|] [s1 a']] eqn:R; [|discriminate]. intros E.
  exists a, a'. split; auto. split; [congruence|]. intros n N. exact (read_fields_other h fs (proj2 (Forall_forall _ fs) (fun f _ => read_own h f)) n N _ _ _ _ _ _ _ _ R).
Qed.

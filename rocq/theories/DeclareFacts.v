(** Proofs about Declare.v. *)
From Verif Require Import Base Marshal IntCodec IoBuffer Serialize RefEngine BufferModel BufferMacros Declare DeclareSpec.
From Coq Require Import ZArith List Bool String Lia ZifyBool ZifyNat.
Import ListNotations.
Open Scope string_scope.
Open Scope list_scope.
Open Scope Z_scope.

Lemma kset_lookup {A} (l : list (name * A)) n v k : Marshal.lookup (kset l n v) k = if String.eqb n k then Some v else Marshal.lookup l k.
Proof.
  induction l as [|[a w] l IH]; cbn [kset Marshal.lookup].
  - destruct (String.eqb n k); reflexivity.
  - destruct (String.eqb a n) eqn:E; cbn [Marshal.lookup].
    + apply String.eqb_eq in E. subst a. destruct (String.eqb n k); reflexivity.
    + destruct (String.eqb a k) eqn:F.
      * apply String.eqb_eq in F. subst a. rewrite String.eqb_sym, E. reflexivity.
      * exact IH.
Qed.
Lemma lookup_some_in {A} (l : list (name * A)) k : (exists v, Marshal.lookup l k = Some v) <-> In k (map fst l).
Proof.
  induction l as [|[a w] l IH]; cbn [Marshal.lookup map fst In].
  - split; [intros [v H]; discriminate|intros []].
  - destruct (String.eqb a k) eqn:E.
    + apply String.eqb_eq in E. split; eauto.
    + rewrite IH. split; [auto|intros [->|H]; [rewrite String.eqb_refl in E; discriminate|exact H]].
Qed.
Lemma khas_in {A} (l : list (name * A)) k : khas l k = true <-> In k (map fst l).
Proof.
  rewrite <- lookup_some_in. unfold khas. destruct (Marshal.lookup l k); split; eauto; [discriminate|intros [v H]; discriminate].
Qed.
Lemma lookup_none {A} (l : list (name * A)) k : ~ In k (map fst l) -> Marshal.lookup l k = None.
Proof. intros H. destruct (Marshal.lookup l k) eqn:E; [|reflexivity]. exfalso. apply H, lookup_some_in. eauto. Qed.

Definition row (G kw : kwargs) (p : name * option pyarg) : res (name * pyarg) :=
  match Marshal.lookup G (fst p), Marshal.lookup kw (fst p), snd p with
  | Some a, _, _ => Ok (fst p, a)
  | None, Some a, _ => Ok (fst p, a)
  | None, None, Some a => Ok (fst p, a)
  | None, None, None => Err TypeError
  end.
Definition pick (G kw : kwargs) (n : name) (d : option pyarg) : option pyarg :=
  match Marshal.lookup G n with Some a => Some a | None => match Marshal.lookup kw n with Some a => Some a | None => d end end.
Lemma row_pick G kw p : row G kw p = match pick G kw (fst p) (snd p) with Some a => Ok (fst p, a) | None => Err TypeError end.
Proof. unfold row, pick. destruct (Marshal.lookup G (fst p)), (Marshal.lookup kw (fst p)), (snd p); reflexivity. Qed.
Lemma rows_lookup G kw sig : forall b, Marshal.rmap_list (row G kw) sig = Ok b -> forall k,
  Marshal.lookup b k = match Marshal.lookup sig k with Some d => pick G kw k d | None => None end.
Proof.
  induction sig as [|[n d] sig IH]; intros b H k.
  - injection H as <-. reflexivity.
  - cbn [Marshal.rmap_list] in H. rewrite row_pick in H. cbn [fst snd] in H. destruct (pick G kw n d) as [a|] eqn:P; [|discriminate].
    cbn [rbind] in H. destruct (Marshal.rmap_list (row G kw) sig) as [c|] eqn:R; [|discriminate]. injection H as <-.
    cbn [Marshal.lookup]. destruct (String.eqb n k) eqn:E; [apply String.eqb_eq in E; subst; congruence|]. apply IH. reflexivity.
Qed.
Lemma rows_ok G kw sig : (forall n, Marshal.lookup sig n = Some None -> pick G kw n None <> None) -> NoDup (map fst sig) ->
  exists b, Marshal.rmap_list (row G kw) sig = Ok b.
Proof.
  induction sig as [|[n d] sig IH]; intros H N; cbn [Marshal.rmap_list]; [eauto|]. inversion N as [|? ? N1 N2]; subst.
  rewrite row_pick. cbn [fst snd]. assert (P : exists a, pick G kw n d = Some a).
  { destruct d as [d|].
    - unfold pick. destruct (Marshal.lookup G n); eauto. destruct (Marshal.lookup kw n); eauto.
    - specialize (H n). cbn [Marshal.lookup] in H. rewrite String.eqb_refl in H. specialize (H eq_refl). destruct (pick G kw n None); eauto. congruence. }
  destruct P as [a P]. rewrite P. cbn [rbind]. destruct IH as [b B]; [|exact N2|rewrite B; cbn [rbind]; eauto].
  intros m M. apply H. cbn [Marshal.lookup]. destruct (String.eqb n m) eqn:E; [|exact M]. apply String.eqb_eq in E. subst m.
  exfalso. apply N1. apply lookup_some_in. eauto.
Qed.

Lemma names_combine {A} (l : list name) : forall (a : list A), map fst (combine l a) = firstn (List.length a) l.
Proof. induction l as [|x l IH]; intros [|y a]; cbn [combine map firstn List.length]; auto. cbn [fst]. f_equal. apply IH. Qed.

Lemma bind_argument sig args kw b : bind sig args kw = Ok b -> forall n, In n (map fst sig) -> kget b n PNone = argument sig args kw n.
Proof.
  intros H n I. unfold bind in H. destruct (List.length sig <? List.length args)%nat; [discriminate|]. cbv zeta in H.
  destruct (existsb _ kw); [discriminate|]. pose proof (rows_lookup (combine (map fst sig) args) kw sig b H n) as L.
  apply lookup_some_in in I. destruct I as [d D]. rewrite D in L. unfold kget, argument. rewrite L. unfold pick. rewrite D.
  destruct (Marshal.lookup (combine (map fst sig) args) n); [reflexivity|]. destruct (Marshal.lookup kw n); [reflexivity|]. destruct d; reflexivity.
Qed.
Lemma bind_ok sig args kw : NoDup (map fst sig) -> (exists b, bind sig args kw = Ok b) <-> well_called sig args kw.
Proof.
  intros N. unfold well_called, bind. destruct (List.length sig <? List.length args)%nat eqn:L.
  { split; [intros [b H]; discriminate|]. intros (H & _). lia. }
  cbv zeta. destruct (existsb _ kw) eqn:E.
  { split; [intros [b H]; discriminate|]. intros (_ & F & _). exfalso. apply existsb_exists in E. destruct E as (p & I & E).
    rewrite Forall_forall in F. destruct (F p I) as [F1 F2]. apply orb_true_iff in E. destruct E as [E|E].
    - apply khas_in in F1. rewrite F1 in E. discriminate.
    - apply khas_in in E. rewrite names_combine in E. contradiction. }
  assert (F : Forall (fun p => In (fst p) (map fst sig) /\ ~ In (fst p) (firstn (List.length args) (map fst sig))) kw).
  { apply Forall_forall. intros p I. assert (X : (negb (khas sig (fst p)) || khas (combine (map fst sig) args) (fst p)) = false).
    { destruct (negb (khas sig (fst p)) || khas (combine (map fst sig) args) (fst p)) eqn:X; [|reflexivity].
      rewrite <- E. symmetry. apply existsb_exists. exists p. auto. }
    apply orb_false_iff in X. destruct X as [X1 X2]. split.
    - apply khas_in. destruct (khas sig (fst p)); [reflexivity|discriminate].
    - intros I'. rewrite <- (names_combine (map fst sig) args) in I'. apply khas_in in I'. congruence. }
  split.
  - intros [b H]. split; [lia|]. split; [exact F|]. intros n Hn.
    pose proof (rows_lookup _ _ _ _ H n) as R. rewrite Hn in R. 
    rewrite <- (names_combine (map fst sig) args). destruct (Marshal.lookup (combine (map fst sig) args) n) eqn:G; [left; apply lookup_some_in; eauto|].
    destruct (Marshal.lookup kw n) eqn:K; [right; apply lookup_some_in; eauto|]. exfalso.
    clear -H Hn G K. assert (X : forall s b, Marshal.rmap_list (row (combine (map fst sig) args) kw) s = Ok b -> Marshal.lookup s n <> Some None).
    { induction s as [|[m d] s IH]; intros c Hc; [discriminate|]. cbn [Marshal.rmap_list] in Hc. rewrite row_pick in Hc. cbn [fst snd] in Hc.
      cbn [Marshal.lookup]. destruct (String.eqb m n) eqn:E.
      - apply String.eqb_eq in E. subst m. intros X. injection X as ->. unfold pick in Hc. rewrite G, K in Hc. discriminate.
      - destruct (pick _ _ m d); [|discriminate]. cbn [rbind] in Hc. destruct (Marshal.rmap_list _ s) eqn:R; [|discriminate]. eapply IH; eauto. }
    exact (X sig b H Hn).
  - intros (_ & _ & R). apply rows_ok; [|exact N]. intros n Hn. unfold pick. destruct (R n Hn) as [I|I].
    + rewrite <- (names_combine (map fst sig) args) in I. apply lookup_some_in in I. destruct I as [a ->]. discriminate.
    + apply lookup_some_in in I. destruct I as [a I]. rewrite I. destruct (Marshal.lookup (combine (map fst sig) args) n); discriminate.
Qed.
Lemma bind_error sig args kw e : bind sig args kw = Err e -> e = TypeError.
Proof.
  unfold bind. destruct (List.length sig <? List.length args)%nat; [congruence|]. cbv zeta. destruct (existsb _ kw); [congruence|].
  change (Marshal.rmap_list (row (combine (map fst sig) args) kw) sig = Err e -> e = TypeError). generalize sig at 2. intros s.
  induction s as [|p s IH]; cbn [Marshal.rmap_list]; [discriminate|]. rewrite row_pick. destruct (pick _ _ (fst p) (snd p)); cbn [rbind]; [|congruence].
  destruct (Marshal.rmap_list _ s); cbn [rbind]; [discriminate|]. intros H. apply IH. congruence.
Qed.

(** Only what the keywords are bound to matters. *)
Lemma bind_ext sig args kw1 kw2 : (forall k, Marshal.lookup kw1 k = Marshal.lookup kw2 k) -> bind sig args kw1 = bind sig args kw2.
Proof.
  intros H. unfold bind. destruct (List.length sig <? List.length args)%nat; [reflexivity|]. cbv zeta.
  set (G := combine (map fst sig) args).
  assert (X : forall a b : kwargs, (forall k, Marshal.lookup a k = Marshal.lookup b k) ->
     existsb (fun p => negb (khas sig (fst p)) || khas G (fst p)) a = true -> existsb (fun p => negb (khas sig (fst p)) || khas G (fst p)) b = true).
  { intros a b E X. apply existsb_exists in X. destruct X as (p & I & X). assert (I' : In (fst p) (map fst b)).
    { apply lookup_some_in. assert (J : In (fst p) (map fst a)) by (apply in_map; exact I). apply lookup_some_in in J. destruct J as [v J]. exists v. rewrite <- E. exact J. }
    apply in_map_iff in I'. destruct I' as (q & Q & I'). apply existsb_exists. exists q. split; [exact I'|]. rewrite Q. exact X. }
  assert (E : existsb (fun p => negb (khas sig (fst p)) || khas G (fst p)) kw1 = existsb (fun p => negb (khas sig (fst p)) || khas G (fst p)) kw2).
  { destruct (existsb _ kw1) eqn:E1, (existsb _ kw2) eqn:E2; auto.
    - rewrite (X _ _ H E1) in E2. discriminate.
    - rewrite (X kw2 kw1 (fun k => eq_sym (H k)) E2) in E1. discriminate. }
  rewrite E. destruct (existsb _ kw2); [reflexivity|].
  change (Marshal.rmap_list (row G kw1) sig = Marshal.rmap_list (row G kw2) sig). generalize sig. intros s.
  induction s as [|p s IH]; cbn [Marshal.rmap_list]; [reflexivity|]. rewrite IH. unfold row. rewrite H. reflexivity.
Qed.
Lemma int_field_ext static args kw1 kw2 : (forall k, Marshal.lookup kw1 k = Marshal.lookup kw2 k) -> int_field static args kw1 = int_field static args kw2.
Proof. intros H. unfold int_field. rewrite (bind_ext int_sig args kw1 kw2 H). reflexivity. Qed.

(** ** The builder *)
Lemma where_rid_refers a r : where_rid a = Ok r <-> refers a r.
Proof.
  unfold where_rid, refers. split.
  - destruct a; intros H; try discriminate; injection H as <-; eauto.
  - intros [->|(i & -> & ->)]; reflexivity.
Qed.
Lemma pack_rid_refers a r : pack_rid a = Ok r <-> refers a r.
Proof. rewrite <- where_rid_refers. destruct a; cbn [pack_rid where_rid]; split; congruence. Qed.
Lemma refers_truthy a r : refers a r -> truthy_arg a = true /\ is_none a = false /\ is_reference a = true.
Proof. intros [->|(i & -> & ->)]; auto. Qed.
Lemma none_cases a : is_none a = true -> a = PNone. Proof. destruct a; cbn; congruence. Qed.
Lemma unpack_after_named a l : unpack_after a = Ok l <-> named_fields a l.
Proof.
  unfold unpack_after, named_fields. destruct a as [| |v| | | | | | | | |]; try (split; [intros H; (injection H as <-; reflexivity) || discriminate|intros H; (subst l; reflexivity) || contradiction]).
  destruct v as [| | | | |[|x v]|]; try (split; [discriminate|contradiction]). split; congruence.
Qed.
Lemma not_reference a : is_reference a = false <-> forall r, ~ refers a r.
Proof.
  split.
  - intros H r R. destruct (refers_truthy _ _ R) as (_ & _ & E). congruence.
  - intros H. destruct a; try reflexivity; exfalso; [apply (H r); left; reflexivity|apply (H (mkRid KField i)); right; eauto].
Qed.
Lemma condition_eq a : (if is_none a then p_true else a) = condition a. Proof. destruct a; reflexivity. Qed.

Lemma declare_says static num b p u pk uk d : declare static num b p u pk uk = Ok d -> says d (fun n => kget b n PNone).
Proof.
  unfold declare. cbv zeta. set (w := kget b "where" PNone). set (wp := kget b "where_when_pack" PNone). set (wu := kget b "where_when_unpack" PNone).
  destruct (negb _) eqn:T; [discriminate|]. intros H. destruct (resolve_static_where static w wp wu) as [[]|] eqn:RS; [|discriminate]. cbn [rbind] in H.
  destruct (pack_rid (if is_none w then wp else w)) as [rp|] eqn:RP; [|discriminate]. cbn [rbind] in H.
  destruct (where_rid (if is_none w then wu else w)) as [ru|] eqn:RU; [|discriminate]. cbn [rbind] in H.
  destruct (is_reference (kget b "set_after_unpack" PNone)) eqn:SA; [discriminate|]. cbn [rbind] in H.
  destruct (unpack_after (kget b "unpack_after" PNone)) as [l|] eqn:UA; [|discriminate]. cbn [rbind] in H. injection H as <-.
  unfold says. cbn [d_where_pack d_where_unpack d_default d_pack_if d_unpack_if d_before d_after d_unpack_after].
  split; [|split; [reflexivity|split; [apply condition_eq|split; [apply condition_eq|split; [reflexivity|split; [reflexivity|split]]]]]].
  - fold w wp wu. unfold positions. destruct (is_none w) eqn:NW.
    + apply none_cases in NW. right. split; [exact NW|]. split; [apply pack_rid_refers|apply where_rid_refers]; assumption.
    + left. split; [apply pack_rid_refers; assumption|]. split; [apply where_rid_refers in RU; apply pack_rid_refers, where_rid_refers in RP; apply where_rid_refers in RU; congruence|]. unfold resolve_static_where in RS. rewrite NW in RS.
      destruct (is_none wp) eqn:A, (is_none wu) eqn:B; try discriminate. split; apply none_cases; assumption.
  - apply not_reference. exact SA.
  - apply unpack_after_named. exact UA.
Qed.

Lemma declare_ok static num b p u pk uk rp ru l :
  positions (kget b "where" PNone) (kget b "where_when_pack" PNone) (kget b "where_when_unpack" PNone) rp ru ->
  (exists n, static ru = Ok n) -> is_reference (kget b "set_after_unpack" PNone) = false -> named_fields (kget b "unpack_after" PNone) l ->
  exists d, declare static num b p u pk uk = Ok d.
Proof.
  intros P [n S] A U. unfold declare. cbv zeta. set (w := kget b "where" PNone) in *. set (wp := kget b "where_when_pack" PNone) in *. set (wu := kget b "where_when_unpack" PNone) in *.
  apply unpack_after_named in U. rewrite A, U.
  destruct P as [(R & -> & NP & NU)|(NW & RP & RU)].
  - destruct (refers_truthy _ _ R) as (T1 & T2 & _). rewrite NP, NU, T1, T2. cbn [orb negb]. pose proof (proj2 (pack_rid_refers _ _) R) as R'. rewrite R'. apply where_rid_refers in R. rewrite R. cbn [rbind].
    unfold resolve_static_where. rewrite T2. cbn [is_none andb passert rbind]. unfold resolve_static_ref. rewrite R. cbn [rbind]. rewrite S. cbn [rbind fst snd].
    destruct n as [n|]; [rewrite Z.eqb_refl|]; cbn [passert rbind]; eauto.
  - destruct (refers_truthy _ _ RP) as (T1 & T2 & _), (refers_truthy _ _ RU) as (T3 & T4 & _). rewrite NW, T1, T3. cbn [truthy_arg orb andb negb is_none].
    unfold resolve_static_where. rewrite T2, T4. cbn [is_none andb negb passert rbind]. unfold resolve_static_ref. apply where_rid_refers in RU. apply pack_rid_refers in RP. rewrite RU, RP. cbn [rbind].
    rewrite S. cbn [rbind]. destruct n as [n|]; [rewrite Z.eqb_refl|]; cbn [passert rbind]; eauto.
Qed.
(** ** All builders *)
Lemma argument_kset sig args kw n v k : k <> n -> argument sig args (kset kw n v) k = argument sig args kw k.
Proof. intros H. unfold argument. rewrite kset_lookup. destruct (String.eqb n k) eqn:E; [apply String.eqb_eq in E; congruence|reflexivity]. Qed.
Lemma argument_kset_same sig args kw n v : ~ In n (firstn (List.length args) (map fst sig)) -> argument sig args (kset kw n v) n = v.
Proof.
  intros H. unfold argument. rewrite <- (names_combine (map fst sig) args) in H. rewrite (lookup_none _ _ H), kset_lookup, String.eqb_refl. reflexivity.
Qed.
Lemma kset_names {A} (l : list (name * A)) n v k : In k (map fst (kset l n v)) <-> k = n \/ In k (map fst l).
Proof.
  rewrite <- !lookup_some_in. setoid_rewrite kset_lookup. destruct (String.eqb n k) eqn:E.
  - apply String.eqb_eq in E. subst. split; eauto.
  - split; [auto|intros [->|H]; [rewrite String.eqb_refl in E; discriminate|exact H]].
Qed.
Lemma Forall_names (P : name -> Prop) (kw : kwargs) : Forall (fun p => P (fst p)) kw <-> forall k, In k (map fst kw) -> P k.
Proof.
  rewrite Forall_forall. split.
  - intros H k I. apply in_map_iff in I. destruct I as (p & <- & I). auto.
  - intros H p I. apply H, in_map, I.
Qed.
Lemma well_called_kset args kw n v : In n (map fst int_sig) ->
  well_called int_sig args (kset kw n v) <-> well_called int_sig args kw /\ ~ In n (firstn (List.length args) (map fst int_sig)).
Proof.
  intros I. unfold well_called. pose (P := fun k : name => In k (map fst int_sig) /\ ~ In k (firstn (List.length args) (map fst int_sig))).
  assert (R : forall n, Marshal.lookup int_sig n <> Some None).
  { intros m. unfold int_sig, common. cbn [app Marshal.lookup]. repeat (destruct (String.eqb _ m); [discriminate|]). discriminate. }
  split.
  - intros (L & F & _). pose proof (proj1 (Forall_names P (kset kw n v)) F) as F'. assert (Fn := F' n (proj2 (kset_names kw n v n) (or_introl eq_refl))).
    split; [|exact (proj2 Fn)]. split; [exact L|]. split; [apply (proj2 (Forall_names P kw)); intros k K; apply F', kset_names; auto|]. intros m M. destruct (R m M).
  - intros ((L & F & _) & N). split; [exact L|]. pose proof (proj1 (Forall_names P kw) F) as F'. split; [|intros m M; destruct (R m M)].
    apply (proj2 (Forall_names P _)). intros k K. apply kset_names in K. destruct K as [->|K]; [split; assumption|auto].
Qed.
Lemma sign_position (args : list pyarg) : (List.length args <= List.length int_sig)%nat -> ~ In "sign" (firstn (List.length args) (map fst int_sig)) <-> (List.length args <= 1)%nat.
Proof.
  intros _. destruct args as [|a [|b args]]; cbn [List.length].
  - split; [lia|intros _ []].
  - split; [lia|]. intros _ [H|[]]. discriminate.
  - split; [|lia]. intros H. exfalso. apply H. right. left. reflexivity.
Qed.
Lemma endian_position (args : list pyarg) : ~ In "endian" (firstn (List.length args) (map fst int_sig)) <-> args = [].
Proof.
  destruct args as [|a args]; [split; [reflexivity|intros _ []]|]. split; [|discriminate]. intros H. exfalso. apply H. left. reflexivity.
Qed.

Definition has (l : list name) (n : name) : bool := existsb (String.eqb n) l.
Lemma has_in l n : has l n = true <-> In n l.
Proof.
  unfold has. rewrite existsb_exists. split; [intros (x & I & E); apply String.eqb_eq in E; subst; exact I|intros I; exists n; split; [exact I|apply String.eqb_refl]].
Qed.
Lemma included l k : forallb (has k) l = true -> forall n, In n l -> In n k.
Proof. intros H n I. apply has_in. rewrite forallb_forall in H. apply H, I. Qed.
Lemma excluded l n : has l n = false -> ~ In n l.
Proof. intros H I. apply has_in in I. congruence. Qed.
Ltac nodup := repeat (apply NoDup_cons; [apply excluded; reflexivity|]); apply NoDup_nil.
Lemma nd_int : NoDup (map fst int_sig). Proof. nodup. Qed.
Lemma nd_float : NoDup (map fst float_sig). Proof. nodup. Qed.
Lemma nd_bytearray : NoDup (map fst bytearray_sig). Proof. nodup. Qed.
Lemma nd_str : NoDup (map fst str_sig). Proof. nodup. Qed.
Lemma nd_buffer : NoDup (map fst buffer_sig). Proof. nodup. Qed.
Lemma nd_list : NoDup (map fst list_sig). Proof. nodup. Qed.

(** A call either cannot be bound, or is a call of the common builder. *)
Definition shaped (F : (rid -> res (option Z)) -> list pyarg -> kwargs -> res decl) (sig : signature) (cond : list pyarg -> kwargs -> Prop) : Prop :=
  forall static args kw,
    ((forall e, F static args kw = Err e -> ~ well_called sig args kw -> e = TypeError) /\ ((exists d, F static args kw = Ok d) -> well_called sig args kw /\ cond args kw))
    /\ (well_called sig args kw -> cond args kw -> exists num b p u pk uk,
         F static args kw = declare static num b p u pk uk
         /\ forall n, In n (map fst (common PNone) ++ ["default"]) -> kget b n PNone = argument sig args kw n).

Lemma bound_shape (num : bool) sig (cp cu : kwargs -> packer) (mk mu : kwargs -> kwargs) : NoDup (map fst sig) ->
  (forall n, In n (map fst (common PNone) ++ ["default"]) -> In n (map fst sig)) ->
  shaped (fun static args kw => let* b := bind sig args kw in declare static num b (cp b) (cu b) (mk b) (mu b)) sig any_call.
Proof.
  intros N I static args kw. destruct (bind sig args kw) as [b|e] eqn:B; cbn [rbind].
  - assert (W : well_called sig args kw) by (apply bind_ok; eauto). split; [split; [intros e _ X; contradiction|intros _; split; [exact W|exact Logic.I]]|].
    intros _ _. exists num, b, (cp b), (cu b), (mk b), (mu b). split; [reflexivity|]. intros n Hn. apply bind_argument; auto.
  - apply bind_error in B as E. split; [split; [congruence|intros [d D]; discriminate]|]. intros W. apply bind_ok in W; [|exact N]. destruct W as [b W]. congruence.
Qed.
Ltac in_names := apply included; reflexivity.
Lemma shape_int : shaped int_field int_sig any_call.
Proof. apply (bound_shape true int_sig (fun _ => CInt) (fun _ => CInt) _ (fun b => with_byte_size b [("sign", kget b "sign" PNone); ("endian", kget b "endian" PNone)])); [exact nd_int|in_names]. Qed.
Lemma shape_float : shaped float_field float_sig any_call.
Proof. apply (bound_shape true float_sig (fun _ => CFloat) (fun _ => CFloat) _ (fun b => with_byte_size b [("endian", kget b "endian" PNone)])); [exact nd_float|in_names]. Qed.
Lemma shape_bytearray : shaped bytearray_field bytearray_sig any_call.
Proof. apply (bound_shape false bytearray_sig (fun _ => CBytearray) (fun _ => CBytearray) (fun _ => []) (fun _ => [])); [exact nd_bytearray|in_names]. Qed.
Lemma shape_str : shaped str_field str_sig any_call.
Proof. apply (bound_shape false str_sig (fun _ => CStr) (fun _ => CStr) _ (fun b => map (fun n => (n, kget b n PNone)) ["encoding"; "padding"; "strip"; "justify"])); [exact nd_str|in_names]. Qed.
Lemma shape_json : shaped json_field bytearray_sig any_call.
Proof. apply (bound_shape false bytearray_sig (fun _ => CJson) (fun _ => CJson) _ (fun _ => [("encoding", PText "ascii"); ("padding", PVal (VBytes [32])); ("strip", PVal (VBytes [0])); ("justify", PText "left")])); [exact nd_bytearray|in_names]. Qed.
Lemma shape_buffer : shaped buffer_field buffer_sig any_call.
Proof.
  apply (bound_shape false buffer_sig (fun _ => CBuffer) (fun b => if truthy_arg (kget b "unpack_selector" PNone) then CSelector (kget b "unpack_selector" PNone) else CBuffer) _
    (fun b => if truthy_arg (kget b "byte_size" PNone) then [("byte_size", kget b "byte_size" PNone)] else [("type", kget b "type" PNone)])); [exact nd_buffer|in_names].
Qed.
Lemma shape_list : shaped list_field list_sig typed.
Proof.
  intros static args kw. unfold list_field, typed. destruct (bind list_sig args kw) as [b|e] eqn:B; cbn [rbind]; cbv zeta.
  - assert (W : well_called list_sig args kw) by (apply bind_ok; eauto using nd_list).
    rewrite <- (bind_argument _ _ _ _ B "type" ltac:(left; reflexivity)).
    split; [split; [intros e _ X; contradiction|]|].
    + intros [d D]. split; [exact W|]. destruct (kget b "type" PNone) eqn:T; cbn [passert rbind] in D; try discriminate; eauto.
    + intros _ [k K]. destruct K as [K|K]; rewrite K; cbn [passert rbind]; eexists _, b, _, _, _, _; (split; [reflexivity|]);
        intros n Hn; apply bind_argument; auto; revert n Hn; in_names.
  - apply bind_error in B as E. split; [split; [congruence|intros [d D]; discriminate]|]. intros W. apply bind_ok in W; [|exact nd_list]. destruct W as [b W]. congruence.
Qed.
Lemma shape_fix F n v cond : In n (map fst int_sig) -> ~ In n (map fst (common PNone) ++ ["default"]) -> shaped F int_sig cond ->
  shaped (fun static args kw => F static args (kset kw n v)) int_sig (fun args kw => cond args (kset kw n v) /\ ~ In n (firstn (List.length args) (map fst int_sig))).
Proof.
  intros I O H static args kw. destruct (H static args (kset kw n v)) as ((H1 & H2) & H3). split; [split|].
  - intros e E W. apply (H1 e E). rewrite (well_called_kset args kw n v I). intros [X _]. contradiction.
  - intros D. apply H2 in D. destruct D as [D1 D2]. apply (well_called_kset args kw n v I) in D1. destruct D1. auto.
  - intros W [C X]. destruct H3 as (num & b & p & u & pk & uk & E & A); [apply well_called_kset; auto|exact C|].
    exists num, b, p, u, pk, uk. split; [exact E|]. intros m M. rewrite (A m M). apply argument_kset. intros ->. contradiction.
Qed.
Lemma shaped_cond F (c1 c2 : list pyarg -> kwargs -> Prop) : (forall args kw, well_called int_sig args kw -> c1 args kw <-> c2 args kw) -> shaped F int_sig c1 -> shaped F int_sig c2.
Proof.
  intros H S static args kw. destruct (S static args kw) as ((H1 & H2) & H3). split; [split; [exact H1|]|].
  - intros D. apply H2 in D. destruct D as [D1 D2]. split; [exact D1|]. apply H; assumption.
  - intros W C. apply H3; [exact W|]. apply H; assumption.
Qed.
Ltac fixed_name := apply excluded; reflexivity.
Lemma shape_uint : shaped uint_field int_sig endian_only.
Proof.
  refine (shaped_cond _ _ _ _ (shape_fix int_field "sign" (PText "unsigned") any_call ltac:(right; left; reflexivity) ltac:(fixed_name) shape_int)).
  intros args kw (L & _). unfold endian_only. rewrite <- (sign_position args L). split; [intros [_ X]; exact X|intros X; split; [exact I|exact X]].
Qed.
Lemma shape_endian v : shaped (fun static args kw => int_field static args (kset kw "endian" v)) int_sig names_only.
Proof.
  refine (shaped_cond _ _ _ _ (shape_fix int_field "endian" v any_call ltac:(left; reflexivity) ltac:(fixed_name) shape_int)).
  intros args kw _. unfold names_only. rewrite <- (endian_position args). split; [intros [_ X]; exact X|intros X; split; [exact I|exact X]].
Qed.
Lemma shape_uendian v : shaped (fun static args kw => int_field static args (kset (kset kw "sign" (PText "unsigned")) "endian" v)) int_sig names_only.
Proof.
  refine (shaped_cond _ _ _ _ (shape_fix (fun static args kw => int_field static args (kset kw "endian" v)) "sign" (PText "unsigned") names_only ltac:(right; left; reflexivity) ltac:(fixed_name) (shape_endian v))).
  intros args kw _. unfold names_only. split; [intros [X _]; exact X|intros ->; split; [reflexivity|intros []]].
Qed.
Lemma builders_shaped F sig cond : In (F, sig, cond) builders -> shaped F sig cond.
Proof.
  intros H. cbn [builders In] in H.
  destruct H as [H|[H|[H|[H|[H|[H|[H|[H|[H|[H|[H|[H|[]]]]]]]]]]]]]; injection H as <- <- <-.
  - exact shape_int.
  - exact shape_uint.
  - exact (shape_endian (PText "big")).
  - exact (shape_uendian (PText "big")).
  - exact (shape_endian (PText "little")).
  - exact (shape_uendian (PText "little")).
  - exact shape_float.
  - exact shape_bytearray.
  - exact shape_str.
  - exact shape_json.
  - exact shape_buffer.
  - exact shape_list.
Qed.

Lemma says_ext d f g : (forall n, In n (map fst (common PNone) ++ ["default"]) -> f n = g n) -> says d f -> says d g.
Proof. intros H. unfold says. rewrite <- !H by (apply has_in; reflexivity). auto. Qed.
Lemma builders_say F sig cond static args kw d : In (F, sig, cond) builders -> F static args kw = Ok d ->
  well_called sig args kw /\ cond args kw /\ says d (argument sig args kw).
Proof.
  intros H D. destruct (builders_shaped _ _ _ H static args kw) as ((_ & H2) & H3). destruct (H2 (ex_intro _ d D)) as [W C].
  split; [exact W|split; [exact C|]]. destruct (H3 W C) as (num & b & p & u & pk & uk & E & A). rewrite E in D.
  eapply says_ext; [exact A|]. exact (declare_says _ _ _ _ _ _ _ _ D).
Qed.
Lemma builders_accept F sig cond static args kw rp ru l : In (F, sig, cond) builders -> well_called sig args kw -> cond args kw ->
  let arg := argument sig args kw in
  positions (arg "where") (arg "where_when_pack") (arg "where_when_unpack") rp ru -> (exists n, static ru = Ok n) ->
  (forall r, ~ refers (arg "set_after_unpack") r) -> named_fields (arg "unpack_after") l -> exists d, F static args kw = Ok d.
Proof.
  intros H W C arg P S A U. destruct (builders_shaped _ _ _ H static args kw) as (_ & H3). destruct (H3 W C) as (num & b & p & u & pk & uk & E & B). rewrite E.
  apply (declare_ok static num b p u pk uk rp ru l); [|exact S| |].
  - rewrite !B by (apply has_in; reflexivity). exact P.
  - apply not_reference. rewrite B by (apply has_in; reflexivity). exact A.
  - rewrite B by (apply has_in; reflexivity). exact U.
Qed.
Lemma builders_reject F sig cond static args kw : In (F, sig, cond) builders -> ~ well_called sig args kw -> F static args kw = Err TypeError.
Proof.
  intros H W. destruct (builders_shaped _ _ _ H static args kw) as ((H1 & H2) & _). destruct (F static args kw) as [d|e] eqn:E.
  - destruct (H2 (ex_intro _ d eq_refl)). contradiction.
  - rewrite (H1 e eq_refl W). reflexivity.
Qed.
Lemma builders_no_position F sig cond static args kw : In (F, sig, cond) builders -> well_called sig args kw -> cond args kw ->
  let arg := argument sig args kw in
  arg "where" = PNone -> arg "where_when_pack" = PNone \/ arg "where_when_unpack" = PNone -> F static args kw = Err ValueError.
Proof.
  intros H W C arg N P. destruct (builders_shaped _ _ _ H static args kw) as (_ & H3). destruct (H3 W C) as (num & b & p & u & pk & uk & E & B). rewrite E.
  unfold declare. cbv zeta. rewrite !B by (apply has_in; reflexivity). fold arg. rewrite N. destruct P as [P|P]; rewrite P; cbn [truthy_arg orb andb negb]; [reflexivity|].
  rewrite andb_false_r. reflexivity.
Qed.
Lemma builders_empty_position F sig cond static args kw : In (F, sig, cond) builders -> well_called sig args kw -> cond args kw ->
  let arg := argument sig args kw in
  let empty a := In a [PNone; PText ""; PFields []; PVal VNone; PVal (VInt 0); PVal (VList []); PVal (VBytes []); PVal (VStr [])] in
  empty (arg "where") -> empty (arg "where_when_pack") \/ empty (arg "where_when_unpack") -> F static args kw = Err ValueError.
Proof.
  intros H W C arg empty N P. destruct (builders_shaped _ _ _ H static args kw) as (_ & H3). destruct (H3 W C) as (num & b & p & u & pk & uk & E & B). rewrite E.
  assert (T : forall a, empty a -> truthy_arg a = false). { unfold empty. intros a X. cbn [In] in X. repeat (destruct X as [<- | X]; [reflexivity|]). destruct X. }
  unfold declare. cbv zeta. rewrite !B by (apply has_in; reflexivity). fold arg. rewrite (T _ N). destruct P as [P|P]; rewrite (T _ P); cbn [orb andb negb]; [reflexivity|].
  rewrite andb_false_r. reflexivity.
Qed.
Lemma builders_two_positions F sig cond static args kw r : In (F, sig, cond) builders -> well_called sig args kw -> cond args kw ->
  let arg := argument sig args kw in
  refers (arg "where") r -> arg "where_when_pack" <> PNone \/ arg "where_when_unpack" <> PNone -> F static args kw = Err AssertionError.
Proof.
  intros H W C arg N P. destruct (builders_shaped _ _ _ H static args kw) as (_ & H3). destruct (H3 W C) as (num & b & p & u & pk & uk & E & B). rewrite E.
  unfold declare. cbv zeta. rewrite !B by (apply has_in; reflexivity). fold arg. destruct (refers_truthy _ _ N) as (T1 & T2 & _). rewrite T1. cbn [orb negb].
  unfold resolve_static_where. rewrite T2.
  assert (X : (is_none (arg "where_when_pack") && is_none (arg "where_when_unpack")) = false).
  { destruct P as [P|P]; [destruct (arg "where_when_pack"); try reflexivity; congruence|]. destruct (arg "where_when_unpack"); rewrite ?andb_false_r; congruence. }
  rewrite X. reflexivity.
Qed.
Lemma builders_no_reference F sig cond static args kw : In (F, sig, cond) builders -> well_called sig args kw -> cond args kw ->
  let arg := argument sig args kw in
  (truthy_arg (arg "where") = true -> (forall r, ~ refers (arg "where") r) -> arg "where_when_pack" = PNone -> arg "where_when_unpack" = PNone ->
     F static args kw = Err AttributeError)
  /\ (arg "where" = PNone -> truthy_arg (arg "where_when_pack") = true -> truthy_arg (arg "where_when_unpack") = true ->
     (forall r, ~ refers (arg "where_when_unpack") r) -> F static args kw = Err AttributeError).
Proof.
  intros H W C arg. destruct (builders_shaped _ _ _ H static args kw) as (_ & H3). destruct (H3 W C) as (num & b & p & u & pk & uk & E & B).
  assert (T : forall a, truthy_arg a = true -> is_none a = false) by (intros a; destruct a; cbn; congruence).
  assert (A : forall a, (forall r, ~ refers a r) -> resolve_static_ref static a = Err AttributeError).
  { intros a N. apply not_reference in N. unfold resolve_static_ref. destruct a; try discriminate N; reflexivity. }
  rewrite E. unfold declare. cbv zeta. rewrite !B by (apply has_in; reflexivity). fold arg. split.
  - intros Tw N Np Nu. rewrite Tw, Np, Nu. cbn [orb negb]. unfold resolve_static_where. rewrite (T _ Tw). cbn [is_none andb passert rbind]. rewrite (A _ N). reflexivity.
  - intros Nw Tp Tu N. rewrite Nw, Tp, Tu. cbn [truthy_arg orb andb negb]. unfold resolve_static_where. rewrite (T _ Tp), (T _ Tu). cbn [is_none andb negb passert rbind]. rewrite (A _ N). reflexivity.
Qed.
Lemma builders_not_after F sig cond static args kw rp ru : In (F, sig, cond) builders -> well_called sig args kw -> cond args kw ->
  let arg := argument sig args kw in
  positions (arg "where") (arg "where_when_pack") (arg "where_when_unpack") rp ru -> (exists n, static ru = Ok n) ->
  (forall r, ~ refers (arg "set_after_unpack") r) -> (forall l, ~ named_fields (arg "unpack_after") l) -> F static args kw = Err AssertionError.
Proof.
  intros H W C arg P [n S] SA U. destruct (builders_shaped _ _ _ H static args kw) as (_ & H3). destruct (H3 W C) as (num & b & p & u & pk & uk & E & B).
  assert (UA : unpack_after (arg "unpack_after") = Err AssertionError).
  { unfold unpack_after. specialize (fun l => U l). unfold named_fields in U. destruct (arg "unpack_after") as [| |v| | | |l| | | | |]; try reflexivity; try (exfalso; eapply U; reflexivity).
    destruct v as [| | | | |[|x v]|]; try reflexivity. exfalso; eapply U; reflexivity. }
  apply not_reference in SA. rewrite E. unfold declare. cbv zeta. rewrite !B by (apply has_in; reflexivity). fold arg. rewrite SA, UA.
  destruct P as [(R & -> & NP & NU)|(NW & RP & RU)].
  - destruct (refers_truthy _ _ R) as (T1 & T2 & _). rewrite NP, NU, T1, T2. cbn [orb negb]. pose proof (proj2 (pack_rid_refers _ _) R) as R'. rewrite R'. apply where_rid_refers in R. rewrite R. cbn [rbind].
    unfold resolve_static_where. rewrite T2. cbn [is_none andb passert rbind]. unfold resolve_static_ref. rewrite R. cbn [rbind]. rewrite S. cbn [rbind fst snd].
    destruct n as [n|]; [rewrite Z.eqb_refl|]; reflexivity.
  - destruct (refers_truthy _ _ RP) as (T1 & T2 & _), (refers_truthy _ _ RU) as (T3 & T4 & _). rewrite NW, T1, T3. cbn [truthy_arg orb andb negb is_none].
    unfold resolve_static_where. rewrite T2, T4. cbn [is_none andb negb passert rbind]. unfold resolve_static_ref. apply where_rid_refers in RU. apply pack_rid_refers in RP. rewrite RU, RP. cbn [rbind].
    rewrite S. cbn [rbind]. destruct n as [n|]; [rewrite Z.eqb_refl|]; reflexivity.
Qed.

(** ** Integers *)
Definition int_keywords (size sign endian : pyarg) (static : name) : list (name * kwv) :=
  [("byte_size", if truthy_arg size then KwArg size else KwLength); (static, KwStatic); ("sign", KwArg sign); ("endian", KwArg endian)].
Lemma int_field_keywords static args kw d : int_field static args kw = Ok d ->
  let arg := argument int_sig args kw in
  d_packer d = CInt /\ d_unpacker d = CInt
  /\ d_pack_kw d = int_keywords (arg "byte_size") (arg "sign") (arg "endian") "pack_size"
  /\ d_unpack_kw d = int_keywords (arg "byte_size") (arg "sign") (arg "endian") "unpack_size".
Proof.
  unfold int_field. destruct (bind int_sig args kw) as [b|] eqn:B; [|discriminate]. cbn [rbind]. cbv zeta. unfold with_byte_size.
  rewrite !(bind_argument _ _ _ _ B) by (apply has_in; reflexivity).
  unfold declare. cbv zeta. destruct (negb _); [discriminate|]. intros H.
  destruct (resolve_static_where _ _ _ _) as [[]|]; [|discriminate]. cbn [rbind] in H.
  destruct (pack_rid _) as [rp|]; [|discriminate]. cbn [rbind] in H.
  destruct (where_rid _) as [ru|]; [|discriminate]. cbn [rbind] in H.
  destruct (is_reference _); [discriminate|]. cbn [rbind] in H.
  destruct (unpack_after _) as [l|]; [|discriminate]. cbn [rbind] in H. injection H as <-.
  cbn [d_packer d_unpacker d_pack_kw d_unpack_kw]. unfold int_keywords. destruct (truthy_arg (argument int_sig args kw "byte_size")); auto.
Qed.

Lemma size_arg_bits n : arg_bits (size_arg n) = Ok n.
Proof.
  destruct n as [n|]; [|reflexivity]. unfold size_arg. destruct (n mod 8 =? 0) eqn:E; cbn [arg_bits].
  - do 2 f_equal. apply Z.eqb_eq in E. pose proof (Z.div_mod n 8). lia.
  - rewrite E. reflexivity.
Qed.
Lemma bits_truthy a size n : arg_bits a = Ok size ->
  arg_bits (if truthy_arg a then a else size_arg n) = Ok (size_at size n).
Proof.
  destruct a as [| |v|b| | | | | | | |]; cbn [arg_bits]; intros H; try discriminate.
  - injection H as <-. apply size_arg_bits.
  - destruct v as [|m| | | | |]; try discriminate. assert (X : size = Some (8 * m)) by congruence. subst size. clear H. cbn [truthy_arg truthy size_at].
    destruct (m =? 0) eqn:E.
    + apply Z.eqb_eq in E. subst m. cbn [negb]. apply size_arg_bits.
    + cbn [negb arg_bits]. replace (8 * m =? 0) with false by lia. reflexivity.
  - destruct (b mod 8 =? 0) eqn:E; [discriminate|]. injection H as <-. cbn [truthy_arg arg_bits size_at]. rewrite E.
    replace (b =? 0) with false; [reflexivity|]. symmetry. apply Z.eqb_neq. intros ->. discriminate.
Qed.

Lemma named_truthy a e : endian_named a = Ok e -> truthy_arg a = true.
Proof. destruct a as [|s| | | | | | | | | |]; try discriminate; [|destruct v; discriminate]. destruct (String.eqb s "") eqn:E; cbn [truthy_arg]; [|rewrite E; reflexivity]. apply String.eqb_eq in E. subst. discriminate. Qed.
Lemma kwargs_at_int n size sign endian w :
  kwargs_at n (int_keywords size sign endian w) = [("byte_size", if truthy_arg size then size else size_arg n); (w, PNone); ("sign", sign); ("endian", endian)].
Proof. unfold kwargs_at, int_keywords. cbn [map fst snd]. destruct (truthy_arg size); reflexivity. Qed.
Lemma format_named kw sign endian s e : kget (kupdate [("sign", PText "signed"); ("endian", PText "native")] kw) "sign" PNone = sign ->
  kget (kupdate [("sign", PText "signed"); ("endian", PText "native")] kw) "endian" PNone = endian ->
  sign_named sign = Ok s -> endian_named endian = Ok e -> int_format_kw kw = Ok (s, e).
Proof. intros A B S E. unfold int_format_kw. cbv zeta. rewrite A, B, S, E. reflexivity. Qed.
(** Only three keywords matter. *)
Lemma pack_int_kw_named h kw n s e v : Marshal.lookup kw "byte_size" = Some n ->
  forall bits, arg_bits n = Ok bits -> int_format_kw kw = Ok (s, e) -> pack_int_kw h kw v = pack_int h s e bits v.
Proof.
  intros L bits B F. unfold pack_int_kw, pack_int, kget, khas. rewrite L, B. cbn [rbind]. destruct (fractional_size bits) as [m|]; [|reflexivity]. cbn [rbind].
  destruct (struct_key m); [rewrite F; reflexivity|]. destruct v; reflexivity.
Qed.
Lemma unpack_int_kw_named h kw n s e b : Marshal.lookup kw "byte_size" = Some n -> truthy_arg (kget kw "endian" (PText "big")) = true ->
  forall bits, arg_bits n = Ok bits -> int_format_kw kw = Ok (s, e) -> unpack_int_kw h kw b = unpack_int h s e bits b.
Proof.
  intros L T bits B F. unfold unpack_int_kw, unpack_int. unfold kget at 1, khas. rewrite L, B, T. cbn [rbind]. destruct (fractional_size bits) as [m|]; [|reflexivity]. cbn [rbind].
  destruct (struct_key m); [rewrite F; reflexivity|]. reflexivity.
Qed.

Lemma int_field_codec static args kw d s e size : int_field static args kw = Ok d ->
  let arg := argument int_sig args kw in
  sign_named (arg "sign") = Ok s -> endian_named (arg "endian") = Ok e -> arg_bits (arg "byte_size") = Ok size ->
  d_packer d = CInt /\ d_unpacker d = CInt
  /\ (forall h n v, pack_int_kw h (kwargs_at n (d_pack_kw d)) v = pack_int h s e (size_at size n) v)
  /\ (forall h n b, unpack_int_kw h (kwargs_at n (d_unpack_kw d)) b = unpack_int h s e (size_at size n) b).
Proof.
  intros D arg S E B. destruct (int_field_keywords _ _ _ _ D) as (P & U & PK & UK). fold arg in PK, UK.
  split; [exact P|split; [exact U|split; intros h n x]].
  - rewrite PK, kwargs_at_int. eapply pack_int_kw_named; [reflexivity|apply bits_truthy; exact B|]. eapply format_named; eauto.
  - rewrite UK, kwargs_at_int. eapply unpack_int_kw_named; [reflexivity| |apply bits_truthy; exact B|eapply format_named; eauto].
    exact (named_truthy _ _ E).
Qed.

Lemma fixed_argument args kw n v : well_called int_sig args (kset kw n v) -> In n (map fst int_sig) -> argument int_sig args (kset kw n v) n = v.
Proof. intros W I. apply argument_kset_same. apply (well_called_kset args kw n v I) in W. apply W. Qed.
Lemma int_field_called static args kw d : int_field static args kw = Ok d -> well_called int_sig args kw.
Proof. intros D. destruct (shape_int static args kw) as ((_ & H) & _). apply H. eauto. Qed.

Lemma uint_field_codec static args kw d e size : uint_field static args kw = Ok d ->
  endian_named (argument int_sig args kw "endian") = Ok e -> arg_bits (argument int_sig args kw "byte_size") = Ok size ->
  (forall h n v, pack_int_kw h (kwargs_at n (d_pack_kw d)) v = pack_int h false e (size_at size n) v)
  /\ (forall h n b, unpack_int_kw h (kwargs_at n (d_unpack_kw d)) b = unpack_int h false e (size_at size n) b).
Proof.
  intros D E B. unfold uint_field in D. pose proof (int_field_called _ _ _ _ D) as W.
  destruct (int_field_codec _ _ _ _ false e size D) as (_ & _ & X).
  - rewrite fixed_argument; [reflexivity|exact W|apply has_in; reflexivity].
  - rewrite argument_kset by discriminate. exact E.
  - rewrite argument_kset by discriminate. exact B.
  - exact X.
Qed.
Lemma fixed_endian_codec name e static args kw d s size : endian_named (PText name) = Ok e -> int_field static args (kset kw "endian" (PText name)) = Ok d ->
  sign_named (argument int_sig args kw "sign") = Ok s -> arg_bits (argument int_sig args kw "byte_size") = Ok size ->
  (forall h n v, pack_int_kw h (kwargs_at n (d_pack_kw d)) v = pack_int h s e (size_at size n) v)
  /\ (forall h n b, unpack_int_kw h (kwargs_at n (d_unpack_kw d)) b = unpack_int h s e (size_at size n) b).
Proof.
  intros N D S B. pose proof (int_field_called _ _ _ _ D) as W.
  destruct (int_field_codec _ _ _ _ s e size D) as (_ & _ & X).
  - rewrite argument_kset by discriminate. exact S.
  - rewrite fixed_argument; [exact N|exact W|apply has_in; reflexivity].
  - rewrite argument_kset by discriminate. exact B.
  - exact X.
Qed.
Lemma fixed_both_codec name e static args kw d size : endian_named (PText name) = Ok e ->
  int_field static args (kset (kset kw "sign" (PText "unsigned")) "endian" (PText name)) = Ok d ->
  arg_bits (argument int_sig args kw "byte_size") = Ok size ->
  (forall h n v, pack_int_kw h (kwargs_at n (d_pack_kw d)) v = pack_int h false e (size_at size n) v)
  /\ (forall h n b, unpack_int_kw h (kwargs_at n (d_unpack_kw d)) b = unpack_int h false e (size_at size n) b).
Proof.
  intros N D B. pose proof (int_field_called _ _ _ _ D) as W. apply well_called_kset in W; [|apply has_in; reflexivity]. destruct W as [W _].
  apply (fixed_endian_codec name e _ _ _ _ false size N D).
  - rewrite fixed_argument; [reflexivity|exact W|apply has_in; reflexivity].
  - rewrite argument_kset by discriminate. exact B.
Qed.

(** What a builder fixes, the caller cannot change. *)
Lemma fixed_ignored static args kw1 kw2 n v : (forall k, k <> n -> Marshal.lookup kw1 k = Marshal.lookup kw2 k) ->
  int_field static args (kset kw1 n v) = int_field static args (kset kw2 n v).
Proof. intros H. apply int_field_ext. intros k. rewrite !kset_lookup. destruct (String.eqb n k) eqn:E; [reflexivity|]. apply H. intros ->. rewrite String.eqb_refl in E. discriminate. Qed.

(** An endianness that does not exist. *)
Lemma bad_endian static args kw d s x size : int_field static args kw = Ok d ->
  let arg := argument int_sig args kw in
  sign_named (arg "sign") = Ok s -> endian_named (arg "endian") = Err x -> arg_bits (arg "byte_size") = Ok size ->
  forall h n, In (size_at size n) [Some 8; Some 16; Some 32; Some 64] ->
  (forall v, pack_int_kw h (kwargs_at n (d_pack_kw d)) v = Err x) /\ (forall b, unpack_int_kw h (kwargs_at n (d_unpack_kw d)) b = Err x).
Proof.
  intros D arg S E B h n K. destruct (int_field_keywords _ _ _ _ D) as (_ & _ & PK & UK). fold arg in PK, UK.
  assert (SK : exists w, struct_key (size_at size n) = Some w) by (destruct K as [<-|[<-|[<-|[<-|[]]]]]; eexists; reflexivity). destruct SK as [w SK].
  assert (FS : fractional_size (size_at size n) = Ok (size_at size n)).
  { destruct K as [<-|[<-|[<-|[<-|[]]]]]; reflexivity. }
  rewrite PK, UK, !kwargs_at_int. clear PK UK D. revert S E B. generalize (arg "sign") (arg "endian") (arg "byte_size"). intros sg en sz S E B.
  assert (F : forall m, m <> "sign" -> m <> "endian" -> forall a, int_format_kw [("byte_size", a); (m, PNone); ("sign", sg); ("endian", en)] = Err x).
  { intros m M1 M2 a. unfold int_format_kw. cbv zeta. unfold kupdate. cbn [fold_left fst snd].
    assert (L : forall k l, kget (kset (kset l "sign" sg) "endian" en) k PNone = if String.eqb "endian" k then en else if String.eqb "sign" k then sg else kget l k PNone).
    { intros k l. unfold kget. rewrite !kset_lookup. destruct (String.eqb "endian" k), (String.eqb "sign" k); reflexivity. }
    rewrite !L. cbn [String.eqb Ascii.eqb Bool.eqb]. rewrite S. cbn [rbind]. rewrite E. reflexivity. }
  pose proof (bits_truthy _ _ n B) as BT. revert BT. generalize (if truthy_arg sz then sz else size_arg n). intros a BT.
  split; intros y.
  - unfold pack_int_kw. unfold kget at 1. cbn [Marshal.lookup]. rewrite String.eqb_refl, BT. cbn [rbind]. rewrite FS. cbn [rbind].
    rewrite SK, F by discriminate. reflexivity.
  - unfold unpack_int_kw. unfold kget at 1. cbn [Marshal.lookup]. rewrite String.eqb_refl, BT. cbn [rbind]. rewrite FS. cbn [rbind].
    rewrite SK, F by discriminate. reflexivity.
Qed.

(** ** Elements of lists *)
Lemma kupdate_lookup {A} (e : list (name * A)) : forall d k, NoDup (map fst e) ->
  Marshal.lookup (kupdate d e) k = match Marshal.lookup e k with Some v => Some v | None => Marshal.lookup d k end.
Proof.
  induction e as [|[n v] e IH]; intros d k N; [reflexivity|]. inversion N as [|? ? N1 N2]; subst. unfold kupdate. cbn [fold_left fst snd].
  change (fold_left (fun d p => kset d (fst p) (snd p)) e (kset d n v)) with (kupdate (kset d n v) e). rewrite IH by exact N2. cbn [Marshal.lookup].
  rewrite kset_lookup. destruct (String.eqb n k) eqn:E; [|reflexivity]. apply String.eqb_eq in E. subst k. rewrite (lookup_none e n N1). reflexivity.
Qed.
Lemma kset_nodup {A} (l : list (name * A)) n v : NoDup (map fst l) -> NoDup (map fst (kset l n v)).
Proof.
  induction l as [|[k w] l IH]; cbn [kset map fst]; intros N; [repeat constructor; intros []|]. inversion N as [|? ? N1 N2]; subst.
  destruct (String.eqb k n) eqn:E; cbn [map fst].
  - exact N.
  - constructor; [|apply IH; exact N2]. intros I. apply kset_names in I. destruct I as [->|I]; [rewrite String.eqb_refl in E; discriminate|contradiction].
Qed.
Lemma element_codec bytes sign endian s e kw : sign_named (PText sign) = Ok s -> endian_named (PText endian) = Ok e -> NoDup (map fst kw) ->
  (forall h v, pack_int_kw h (keep_kwargs (int_marshal_kw bytes sign endian) kw) v = int_marshal_pack h (8 * bytes) s e v)
  /\ (forall h n b, unpack_int_kw h (keep_kwargs (int_marshal_kw bytes sign endian) kw) b = int_marshal_unpack h (8 * bytes) s e n b).
Proof.
  intros S E N. unfold keep_kwargs. set (m := kupdate kw (int_marshal_kw bytes sign endian)).
  assert (NM : NoDup (map fst m)) by (unfold m, kupdate, int_marshal_kw; cbn [fold_left fst snd]; repeat apply kset_nodup; exact N).
  assert (L : forall k, Marshal.lookup m k = match Marshal.lookup (int_marshal_kw bytes sign endian) k with Some v => Some v | None => Marshal.lookup kw k end).
  { intros k. apply kupdate_lookup. nodup. }
  assert (F : int_format_kw m = Ok (s, e)).
  { eapply format_named; [| |exact S|exact E]; unfold kget; rewrite kupdate_lookup by exact NM; rewrite L; reflexivity. }
  split.
  - intros h v. eapply pack_int_kw_named; [rewrite L; reflexivity|reflexivity|exact F].
  - intros h n b. eapply unpack_int_kw_named; [rewrite L; reflexivity| |reflexivity|exact F].
    unfold kget. rewrite L. change (truthy_arg (PText endian) = true). exact (named_truthy _ _ E).
Qed.

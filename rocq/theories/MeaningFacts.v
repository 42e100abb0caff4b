(** Proofs for PropertiesMeaning.v. *)
From Verif Require Import Base Marshal Range RangeRef IoBuffer RefEngine RefSpec RefProofs BufferModel BufferSpec MeaningSpec.
From Coq Require Import ZArith List Bool String Lia.
From Coq Require Import ZifyBool.
Import ListNotations.
Open Scope Z_scope.
Ltac Zify.zify_post_hook ::= Z.div_mod_to_equations.

Lemma Forall2_length {A B} (P : A -> B -> Prop) l l' : Forall2 P l l' -> List.length l = List.length l'.
Proof. induction 1; cbn; congruence. Qed.
Lemma number_bits q v : number q v <-> num_bits v = Ok q.
Proof.
  split.
  - intros [n|p]; reflexivity.
  - destruct v as [[]| | | | ]; cbn; try discriminate; intros E; injection E as <-; constructor.
Qed.
Lemma result_rnum q v : result_number q v <-> v = rnum q.
Proof.
  unfold rnum. split.
  - intros [n|p H].
    + replace ((8 * n) mod 8 =? 0) with true by lia. do 2 f_equal. lia.
    + replace (p mod 8 =? 0) with false by lia. reflexivity.
  - intros ->. destruct (Z.eqb_spec (q mod 8) 0) as [E|E]; [|now constructor].
    replace q with (8 * (q / 8)) at 1 by lia. constructor.
Qed.
Lemma truth_rbool (P : Prop) b v : (b = true <-> P) -> (truth P v <-> v = rbool b).
Proof.
  intros H. unfold rbool. split.
  - intros [p|p]; destruct b; auto.
    + apply H in p. discriminate.
    + exfalso. apply p, H. reflexivity.
  - intros ->. destruct b; constructor; [now apply H|]. intros X. apply H in X. discriminate.
Qed.

(** ** What the functions of the model compute is what [says] says *)
Lemma op_says_iff op p q v : op_says op p q v <-> num_op op (RFrac p) (RFrac q) = Ok v.
Proof.
  cbn [num_op num_bits rbind].
  assert (T : forall (P : Prop) b, (b = true <-> P) -> (truth P v <-> Ok (rbool b) = Ok v)).
  { intros P b H. rewrite (truth_rbool P b v H). split; [now intros ->|congruence]. }
  assert (R : forall x, result_number x v <-> Ok (rnum x) = Ok v).
  { intros x. rewrite result_rnum. split; [now intros ->|congruence]. }
  split.
  - intros H. destruct H as [p q v H|p q v H|p q x v E H|p q n v N P M H|p q v H|p q v H|p q v H|p q v H|p q v H|p q v H]; try (apply R; exact H).
    + replace ((p * q) mod 8 =? 0) with true by (rewrite E; lia). replace (p * q / 8) with x by (rewrite E; lia). now apply R.
    + replace (q =? 0) with false by lia. replace (p / q) with n; [now apply R|].
      symmetry. destruct (Z_lt_le_dec 0 q) as [L|L].
      * specialize (P L). symmetry. apply (Z.div_unique p q n (p - n * q)); lia.
      * specialize (M ltac:(lia)). symmetry. apply (Z.div_unique p q n (p - n * q)); lia.
    + eapply T; [|exact H]. apply Z.leb_le.
    + eapply T; [|exact H]. apply Z.ltb_lt.
    + eapply T; [|exact H]. lia.
    + eapply T; [|exact H]. lia.
    + eapply T; [|exact H]. apply Z.eqb_eq.
    + eapply T; [|exact H]. lia.
  - intros H. destruct op; cbn in H.
    + constructor. now apply R.
    + constructor. now apply R.
    + destruct ((p * q) mod 8 =? 0) eqn:E; [|discriminate]. apply (os_mul p q (p * q / 8)); [lia|]. now apply R.
    + destruct (q =? 0) eqn:E; [discriminate|]. apply (os_div p q (p / q)); [lia| | |now apply R].
      * intros L. pose proof (Z.div_mod p q ltac:(lia)). pose proof (Z.mod_pos_bound p q L). nia.
      * intros L. pose proof (Z.div_mod p q ltac:(lia)). pose proof (Z.mod_neg_bound p q L). nia.
    + constructor. eapply T; [|exact H]. apply Z.leb_le.
    + constructor. eapply T; [|exact H]. apply Z.ltb_lt.
    + constructor. eapply T; [|exact H]. lia.
    + constructor. eapply T; [|exact H]. lia.
    + constructor. eapply T; [|exact H]. apply Z.eqb_eq.
    + constructor. eapply T; [|exact H]. lia.
Qed.

Lemma list_eq_iff (l l' : list Z) : (if list_eq_dec Z.eq_dec l l' then true else false) = true <-> l = l'.
Proof. destruct (list_eq_dec Z.eq_dec l l') as [E|E]; split; try tauto; discriminate. Qed.
Lemma eq_same x y : (forall p q, ~ (num_bits x = Ok p /\ num_bits y = Ok q)) ->
  forall P, same x y P -> exists b, values_eq x y = Ok b /\ (b = true <-> P).
Proof.
  intros N P S. destruct S as [x y i j I J D| |l l'|l l'].
  - destruct x as [[]| | | |], y as [[]| | | |]; cbn in I, J; try discriminate; injection I as <-; injection J as <-; try congruence;
      cbn; exists false; (split; [reflexivity|split; [discriminate|intros []]]).
  - exists true. cbn. tauto.
  - eexists. split; [reflexivity|apply list_eq_iff].
  - eexists. split; [reflexivity|apply list_eq_iff].
Qed.
Lemma same_eq x y b : (forall p q, ~ (num_bits x = Ok p /\ num_bits y = Ok q)) -> values_eq x y = Ok b ->
  exists P : Prop, same x y P /\ (b = true <-> P).
Proof.
  intros N H. destruct x as [[]| | | |], y as [[]| | | |]; cbn in H; try discriminate; injection H as <-.
  all: try solve [eexists; split; [eapply same_not; [reflexivity|reflexivity|discriminate]|split; [discriminate|intros []]]].
  all: try solve [exfalso; eapply N; split; reflexivity].
  - exists True. split; [constructor|tauto].
  - eexists. split; [constructor|apply list_eq_iff].
  - eexists. split; [constructor|apply list_eq_iff].
Qed.
Lemma num_op_cases op x y : (exists p q, num_bits x = Ok p /\ num_bits y = Ok q /\ num_op op x y = num_op op (RFrac p) (RFrac q))
  \/ (forall p q, ~ (num_bits x = Ok p /\ num_bits y = Ok q)) /\ num_op op x y = other_op op x y.
Proof.
  unfold num_op. destruct (num_bits x) as [p|]; [destruct (num_bits y) as [q|]|].
  - left. exists p, q. auto.
  - right. split; [intros p' q' (_ & E); discriminate|reflexivity].
  - right. split; [intros p' q' (E & _); discriminate|reflexivity].
Qed.
Lemma same_numbers x y P p q : same x y P -> number p x -> number q y -> False.
Proof.
  intros S X Y. destruct S as [x y i j I J D| |l l'|l l'].
  - inversion X; subst; inversion Y; subst; cbn in I, J; congruence.
  - inversion X.
  - inversion X.
  - inversion X.
Qed.
Lemma num_says op x y v : num_op op x y = Ok v <->
  (exists p q, number p x /\ number q y /\ op_says op p q v)
  \/ (exists P, same x y P /\ (op = OpEq /\ truth P v \/ op = OpNe /\ truth (~ P) v)).
Proof.
  split.
  - intros H. destruct (num_op_cases op x y) as [(p & q & X & Y & E)|(N & E)]; rewrite E in H.
    + left. exists p, q. split; [now apply number_bits|]. split; [now apply number_bits|]. now apply op_says_iff.
    + right. destruct op; cbn [other_op] in H;
        try (destruct (is_none x || is_none y); [discriminate|]; destruct (is_num x && is_text y || is_text x && is_num y); discriminate).
      * destruct (values_eq x y) as [b|] eqn:V; [|discriminate]. destruct (same_eq x y b N V) as (P & S & T). injection H as <-.
        exists P. split; [exact S|]. left. split; [reflexivity|]. now apply (truth_rbool P b).
      * destruct (values_eq x y) as [b|] eqn:V; [|discriminate]. destruct (same_eq x y b N V) as (P & S & T). injection H as <-.
        exists P. split; [exact S|]. right. split; [reflexivity|]. apply (truth_rbool (~ P) (negb b)); [|reflexivity].
        destruct b; cbn [negb]; split; try discriminate; try tauto; intros _ F; apply T in F; discriminate.
  - intros [(p & q & X & Y & H)|(P & S & H)].
    + apply number_bits in X, Y. unfold num_op. rewrite X, Y. apply op_says_iff in H. exact H.
    + assert (N : forall p q, ~ (num_bits x = Ok p /\ num_bits y = Ok q)).
      { intros p q (X & Y). apply number_bits in X, Y. eapply same_numbers; eauto. }
      destruct (num_op_cases op x y) as [(p & q & X & Y & _)|(_ & E)]; [exfalso; eapply N; eauto|]. rewrite E.
      destruct (eq_same x y N P S) as (b & V & T). destruct H as [(-> & H)|(-> & H)]; cbn [other_op]; rewrite V; cbn [rbind]; f_equal; symmetry.
      * now apply (truth_rbool P b v T).
      * apply (truth_rbool (~ P) (negb b) v); [|exact H]. destruct b; cbn [negb]; split; try discriminate; try tauto; intros _ F; apply T in F; discriminate.
Qed.

Lemma numbers_bits xs : forall ps, Forall2 number ps xs <-> rmap_list num_bits xs = Ok ps.
Proof.
  induction xs as [|x r IH]; intros ps; cbn [rmap_list].
  - split; [intros H; now inversion H|]. intros E. injection E as <-. constructor.
  - split.
    + intros H. inversion H as [|p x' ps' r' A B]; subst. apply number_bits in A. apply IH in B. rewrite A. cbn [rbind]. now rewrite B.
    + destruct (num_bits x) as [p|] eqn:E; [|discriminate]. cbn [rbind]. destruct (rmap_list num_bits r) as [l|] eqn:F; [|discriminate].
      intros Q. injection Q as <-. constructor; [now apply number_bits|now apply IH].
Qed.

Lemma fold_max r : forall x, In (fold_left Z.max r x) (x :: r) /\ forall q, In q (x :: r) -> q <= fold_left Z.max r x.
Proof.
  induction r as [|y r IH]; intros x; cbn [fold_left].
  - split; [now left|]. intros q [<-|[]]. lia.
  - destruct (IH (Z.max x y)) as (I & M). split.
    + destruct I as [I|I]; [|right; now right]. rewrite <- I. destruct (Z.max_spec x y) as [[_ ->]|[_ ->]]; [right; now left|now left].
    + assert (B : Z.max x y <= fold_left Z.max r (Z.max x y)) by (apply M; now left).
      intros q [<-|[<-|J]]; [lia|lia|]. apply M. now right.
Qed.
Lemma fold_min r : forall x, In (fold_left Z.min r x) (x :: r) /\ forall q, In q (x :: r) -> fold_left Z.min r x <= q.
Proof.
  induction r as [|y r IH]; intros x; cbn [fold_left].
  - split; [now left|]. intros q [<-|[]]. lia.
  - destruct (IH (Z.min x y)) as (I & M). split.
    + destruct I as [I|I]; [|right; now right]. rewrite <- I. destruct (Z.min_spec x y) as [[_ ->]|[_ ->]]; [now left|right; now left].
    + assert (B : fold_left Z.min r (Z.min x y) <= Z.min x y) by (apply M; now left).
      intros q [<-|[<-|J]]; [lia|lia|]. apply M. now right.
Qed.

Lemma comparable_bits v p : comparable v = Ok p <-> num_bits v = Ok p.
Proof. destruct v as [[]| | | |]; cbn; try tauto; split; discriminate. Qed.
Lemma comparables xs : forall ps, Forall2 number ps xs <-> rmap_list comparable xs = Ok ps.
Proof.
  induction xs as [|x r IH]; intros ps; cbn [rmap_list].
  - split; [intros H; now inversion H|]. intros E. injection E as <-. constructor.
  - split.
    + intros H. inversion H as [|p x' ps' r' A B]; subst. apply number_bits, comparable_bits in A. apply IH in B. rewrite A. cbn [rbind]. now rewrite B.
    + destruct (comparable x) as [p|] eqn:E; [|discriminate]. cbn [rbind]. destruct (rmap_list comparable r) as [l|] eqn:F; [|discriminate].
      intros Q. injection Q as <-. constructor; [now apply number_bits, comparable_bits|now apply IH].
Qed.
Lemma numbers_listed ps xs : Forall2 number ps xs -> forallb (fun v => is_num v || is_none v) xs = true.
Proof. induction 1 as [|p x ps xs N F IH]; [reflexivity|]. cbn [forallb]. rewrite IH. now destruct N. Qed.
Lemma min_max_iff pick xs v : min_max pick xs = Ok v
  <-> exists x r, (1 <= List.length r)%nat /\ Forall2 number (x :: r) xs /\ result_number (fold_left pick r x) v.
Proof.
  split.
  - intros H. destruct xs as [|x [|y xs]]; [discriminate|cbn [min_max] in H; destruct (comparable x); discriminate|]. cbn [min_max] in H.
    destruct (forallb _ _); [|discriminate]. destruct (comparable x) as [p|] eqn:X; [|discriminate].
    change (rbind (rmap_list comparable (y :: xs)) (fun b => Ok (rnum (fold_left pick b p))) = Ok v) in H.
    destruct (rmap_list comparable (y :: xs)) as [ps|] eqn:Q; [|discriminate]. cbn [rbind] in H. injection H as <-.
    apply comparables in Q. exists p, ps. split.
    + apply Forall2_length in Q. rewrite Q. cbn. lia.
    + split; [constructor; [now apply number_bits, comparable_bits|exact Q]|now apply result_rnum].
  - intros (p & ps & L & F & R). pose proof (numbers_listed _ _ F) as B. inversion F as [|a x b r X Y]; subst. apply number_bits, comparable_bits in X.
    destruct r as [|y r]; [inversion Y; subst; cbn in L; lia|].
    apply comparables in Y. cbn [min_max]. rewrite B, X. cbn [rbind]. rewrite Y. cbn [rbind]. apply result_rnum in R. now subst.
Qed.

Lemma max_says l xs v : min_max Z.max xs = Ok v <-> says (UMax l) xs v.
Proof.
  rewrite min_max_iff. split.
  - intros (p & ps & L & F & R). destruct (fold_max ps p) as (I & M). eapply sa_max; [|exact F|exact I|exact M|exact R].
    apply Forall2_length in F. cbn in F. lia.
  - intros H. inversion H as [| | | | | | | |l' xs' ps p v' L F I M R| | | |]; subst.
    apply Forall2_length in F as F'. destruct ps as [|x r]; [now destruct I|]. exists x, r. split; [cbn in F'; lia|]. split; [exact F|].
    destruct (fold_max r x) as (I' & M'). replace (fold_left Z.max r x) with p; [exact R|]. specialize (M _ I'). specialize (M' _ I). lia.
Qed.
Lemma min_says l xs v : min_max Z.min xs = Ok v <-> says (UMin l) xs v.
Proof.
  rewrite min_max_iff. split.
  - intros (p & ps & L & F & R). destruct (fold_min ps p) as (I & M). eapply sa_min; [|exact F|exact I|exact M|exact R].
    apply Forall2_length in F. cbn in F. lia.
  - intros H. inversion H as [| | | | | | |l' xs' ps p v' L F I M R| | | | |]; subst.
    apply Forall2_length in F as F'. destruct ps as [|x r]; [now destruct I|]. exists x, r. split; [cbn in F'; lia|]. split; [exact F|].
    destruct (fold_min r x) as (I' & M'). replace (fold_left Z.min r x) with p; [exact R|]. specialize (M _ I'). specialize (M' _ I). lia.
Qed.

Lemma bound_bits o v : bound o v <-> opt_num_bits v = Ok o.
Proof.
  split.
  - intros [|q w H]; [reflexivity|]. destruct H; reflexivity.
  - unfold opt_num_bits. destruct v as [[]| | | | ]; cbn; try discriminate; intros E; injection E as <-; repeat constructor.
Qed.
Lemma slice_says a b x y v : slice_ranges x y = Ok v <-> says (UByteSlice a b) [x; y] v.
Proof.
  unfold slice_ranges. split.
  - intros H. destruct (opt_num_bits x) as [st|] eqn:X; [|discriminate]. cbn [rbind] in H. destruct (opt_num_bits y) as [sp|] eqn:Y; [|discriminate]. cbn [rbind] in H.
    apply bound_bits in X, Y. destruct (mk_srange st sp) as [r|] eqn:M; [|discriminate]. injection H as <-.
    assert (Q : r = mkR (match st with Some p => p | None => 0 end) sp /\ (forall p, st = Some p -> 0 <= p)
                /\ forall q, sp = Some q -> match st with Some p => p | None => 0 end <= q).
    { unfold mk_srange in M. destruct sp as [e|]; destruct st as [s|]; cbn in M;
        repeat match type of M with context [passert ?c] => destruct c eqn:?; cbn in M; try discriminate end;
        injection M as <-; repeat split; intros ? E; try discriminate E; try (injection E as <-); lia. }
    destruct Q as (-> & A & B). now constructor.
  - intros H. inversion H as [| | | | | | | | |a' b' x' y' st sp X Y A B| | |]; subst. apply bound_bits in X, Y. rewrite X. cbn [rbind]. rewrite Y. cbn [rbind].
    replace (mk_srange st sp) with (Ok (mkR (match st with Some p => p | None => 0 end) sp)); [reflexivity|].
    unfold mk_srange. destruct sp as [e|]; destruct st as [s|]; cbn;
      try specialize (A _ eq_refl); try specialize (B _ eq_refl);
      repeat match goal with |- context [passert ?c] => replace c with true by lia; cbn end; reflexivity.
Qed.
Lemma byte_says a x v : num_ranges x = Ok v <-> says (UByteNum a) [x] v.
Proof.
  unfold num_ranges. split.
  - intros H. destruct (num_bits x) as [p|] eqn:X; [|discriminate]. cbn [rbind] in H. destruct (0 <=? p) eqn:L; [|discriminate]. cbn [passert rbind] in H.
    apply number_bits in X. unfold mk_srange in H. cbn in H.
    repeat match type of H with context [passert ?c] => destruct c eqn:?; cbn in H; try discriminate end. injection H as <-. constructor; [exact X|lia].
  - intros H. inversion H as [| | | | | | | | | |a' x' p X L| |]; subst. apply number_bits in X. rewrite X. cbn [rbind].
    replace (0 <=? p) with true by lia. cbn [passert rbind]. unfold mk_srange. cbn.
    repeat match goal with |- context [passert ?c] => replace c with true by lia; cbn end. reflexivity.
Qed.
Lemma len_says a x v : py_len x = Ok v <-> says (ULen a) [x] v.
Proof.
  split.
  - intros H. destruct x as [[]| | | | ]; try discriminate; injection H as <-; repeat constructor.
  - intros H. inversion H as [| | | | | |a' x' n L| | | | | |]; subst. destruct L; reflexivity.
Qed.
Lemma list_says l vs v : (let* ls := rmap_list as_ranges vs in let* r := list_ref ls in Ok (RRanges r)) = Ok v <-> says (UList l) vs v.
Proof.
  assert (M : forall ws ls, rmap_list as_ranges ws = Ok ls <-> ws = map RRanges ls).
  { clear. induction ws as [|x r IH]; intros ls; cbn [rmap_list].
    - split; [intros E; now inversion E|]. destruct ls; [reflexivity|discriminate].
    - split.
      + destruct x; cbn [as_ranges rbind]; try discriminate. destruct (rmap_list as_ranges r) as [ls'|] eqn:E; [|discriminate]. cbn [rbind]. intros Q. injection Q as <-.
        cbn. f_equal. now apply IH.
      + destruct ls as [|y ls]; [discriminate|]. cbn [map]. intros Q. injection Q as -> ->. cbn [as_ranges rbind]. now rewrite (proj2 (IH ls) eq_refl). }
  split.
  - intros H. destruct (rmap_list as_ranges vs) as [ls|] eqn:E; [|discriminate]. cbn [rbind] in H. apply M in E. subst vs.
    destruct ls; [discriminate|]. injection H as <-. constructor. discriminate.
  - intros H. inversion H as [| | | | | | | | | | |l' ls N|]; subst. rewrite (proj2 (M _ ls) eq_refl). cbn [rbind]. destruct ls; [now destruct N|reflexivity].
Qed.

(** ** Evaluation *)
Section Eval.
Variable C : cls.
Notation ex := (exec rid_eqb (nodes C)).

Lemma ev_list_runs l k m s vs m1 s1 x m' s' :
  args_have C l m s vs m1 s1 -> ex (k vs) m1 s1 x m' s' -> ex (ev_list l k) m s x m' s'.
Proof.
  intros A. revert k x m' s'. induction A as [m s|v l m s vs m1 s1 A IH|r l m s v m2 s2 vs m1 s1 E A IH]; intros k x m' s' H; cbn [ev_list ev].
  - exact H.
  - apply (IH (fun vs => k (v :: vs))). exact H.
  - eapply exec_ref; [exact E|]. apply (IH (fun vs => k (v :: vs))). exact H.
Qed.
Lemma ev_list_raises l k m s e m' s' : args_raise C l m s e m' s' -> ex (ev_list l k) m s (Err e) m' s'.
Proof.
  intros A. revert k. induction A as [v l m s e m' s' A IH|r l m s e m' s' E|r l m s v m1 s1 e m' s' E A IH]; intros k; cbn [ev_list ev].
  - apply (IH (fun vs => k (v :: vs))).
  - now apply exec_ref_raise.
  - eapply exec_ref; [exact E|]. apply (IH (fun vs => k (v :: vs))).
Qed.
Lemma ev_list_inv l : forall k m s x m' s', ex (ev_list l k) m s x m' s' ->
  (exists e, x = Err e /\ args_raise C l m s e m' s')
  \/ exists vs m1 s1, args_have C l m s vs m1 s1 /\ ex (k vs) m1 s1 x m' s'.
Proof.
  induction l as [|a l IH]; intros k m s x m' s' H; cbn [ev_list] in H.
  - right. exists [], m, s. split; [constructor|exact H].
  - destruct a as [v|r]; cbn [ev] in H.
    + apply (IH (fun vs => k (v :: vs))) in H as [(e & -> & A)|(vs & m1 & s1 & A & H)].
      * left. exists e. split; [reflexivity|now constructor].
      * right. exists (v :: vs), m1, s1. split; [now constructor|exact H].
    + inversion H as [| |r' k' m0 s0 v m1 s1 x' m2 s2 E F|r' k' m0 s0 e m1 s1 E| |]; subst.
      * apply (IH (fun vs => k (v :: vs))) in F as [(e & -> & A)|(vs & m3 & s3 & A & F)].
        -- left. exists e. split; [reflexivity|]. eapply ar_later; eauto.
        -- right. exists (v :: vs), m3, s3. split; [eapply ah_ref; eauto|exact F].
      * left. exists e. split; [reflexivity|now constructor].
Qed.

Lemma ret_runs o m s x m' s' : ex (ret o) m s x m' s' <-> x = o /\ m' = m /\ s' = s.
Proof.
  unfold ret, lift. destruct o as [v|e]; (split; [intros H; inversion H; subst; auto|intros (-> & -> & ->); constructor]).
Qed.

(** Every reference of this kind evaluates its arguments and then returns what a function says. *)
Lemma user_form u l : arguments u = Some l ->
  exists g, (forall m s x m' s', ex (user_prog C u) m s x m' s' <-> ex (ev_list l (fun vs => ret (g vs))) m s x m' s')
    /\ forall vs v, List.length vs = List.length l -> (g vs = Ok v <-> says u vs v).
Proof.
  destruct u; cbn [arguments]; intros E; try discriminate; injection E as <-; cbn [user_prog].
  - exists (fun _ => Ok v). split; [reflexivity|]. intros vs w L. destruct vs; [|discriminate]. split; [intros E; injection E as <-; constructor|intros H; now inversion H].
  - exists (fun vs => match vs with [x; y] => num_op op x y | _ => Err TypeError end). split.
    + intros. destruct a, b; cbn [ev_list ev]; reflexivity.
    + intros vs w L. destruct vs as [|x [|y [|]]]; try discriminate. rewrite num_says. split.
      * intros [(p & q & X & Y & H)|(P & S & [(-> & H)|(-> & H)])]; [eapply sa_num; eauto|eapply sa_eq; eauto|eapply sa_ne; eauto].
      * intros H. inversion H; subst; [left; eauto|right; eauto 6|right; eauto 6].
  - exists (fun vs => match vs with [x] => (let* n := num_bits x in Ok (rnum (- n))) | _ => Err TypeError end). split.
    + intros. destruct a; cbn [ev_list ev]; reflexivity.
    + intros vs w L. destruct vs as [|x [|]]; try discriminate. split.
      * destruct (num_bits x) as [p|] eqn:X; [|discriminate]. cbn [rbind]. intros H. injection H as <-. apply (sa_neg a x p); [now apply number_bits|now apply result_rnum].
      * intros H. inversion H as [| | | |a' x' p v' X R| | | | | | | |]; subst. apply number_bits in X. rewrite X. cbn [rbind]. apply result_rnum in R. now subst.
  - exists (fun vs => match vs with [x] => Ok x | _ => Err TypeError end). split.
    + intros. destruct a; cbn [ev_list ev]; reflexivity.
    + intros vs w L. destruct vs as [|x [|]]; try discriminate. split; [intros H; injection H as <-; constructor|intros H; now inversion H].
  - exists (fun vs => match vs with [x; y] => slice_ranges x y | _ => Err TypeError end). split.
    + intros. destruct start, stop; cbn [ev_list ev]; reflexivity.
    + intros vs w L. destruct vs as [|x [|y [|]]]; try discriminate. apply slice_says.
  - exists (fun vs => match vs with [x] => num_ranges x | _ => Err TypeError end). split.
    + intros. destruct a; cbn [ev_list ev]; reflexivity.
    + intros vs w L. destruct vs as [|x [|]]; try discriminate. apply byte_says.
  - exists (fun vs => let* ls := rmap_list as_ranges vs in let* r := list_ref ls in Ok (RRanges r)). split; [reflexivity|].
    intros vs w L. apply list_says.
  - exists (fun vs => match vs with [x] => py_len x | _ => Err TypeError end). split.
    + intros. destruct a; cbn [ev_list ev]; reflexivity.
    + intros vs w L. destruct vs as [|x [|]]; try discriminate. apply len_says.
  - exists (min_max Z.min). split; [reflexivity|]. intros vs w L. apply min_says.
  - exists (min_max Z.max). split; [reflexivity|]. intros vs w L. apply max_says.
  - exists f. split; [reflexivity|]. intros vs w L. split; [now constructor|intros H; now inversion H].
Qed.

(** What a reference computes from the values of its arguments. *)
Definition computes (u : uref) (vs : list rv) : res rv :=
  match u, vs with
  | UConst v, _ => Ok v
  | UNum op _ _, [x; y] => num_op op x y
  | UNeg _, [x] => let* n := num_bits x in Ok (rnum (- n))
  | UCast _, [x] => Ok x
  | UByteSlice _ _, [x; y] => slice_ranges x y
  | UByteNum _, [x] => num_ranges x
  | UList _, vs => let* ls := rmap_list as_ranges vs in let* r := list_ref ls in Ok (RRanges r)
  | ULen _, [x] => py_len x
  | UMin _, vs => min_max Z.min vs
  | UMax _, vs => min_max Z.max vs
  | UFunc g _, vs => g vs
  | _, _ => Err TypeError
  end.
Lemma user_computes u l : arguments u = Some l ->
  forall m s x m' s', ex (user_prog C u) m s x m' s' <-> ex (ev_list l (fun vs => ret (computes u vs))) m s x m' s'.
Proof.
  destruct u; cbn [arguments]; intros E; try discriminate; injection E as <-; cbn [user_prog]; intros.
  all: try reflexivity.
  all: repeat match goal with a : arg |- _ => destruct a end; cbn [ev_list ev]; reflexivity.
Qed.

Lemma args_length l m s vs m' s' : args_have C l m s vs m' s' -> List.length vs = List.length l.
Proof. induction 1; cbn; congruence. Qed.

Lemma user_node k u : nth_error (k_users C) k = Some u -> nodes C (mkRid KUser k) = user_prog C u.
Proof. intros E. unfold nodes. cbn [r_kind r_no]. now rewrite E. Qed.

Lemma reference_value k u l m s : nth_error (k_users C) k = Some u -> arguments u = Some l ->
  RefEngine.lookup rid_eqb (mkRid KUser k) m = None ->
  (forall v m' s', eval rid_eqb (nodes C) (mkRid KUser k) m s (Ok v) m' s'
     <-> exists vs m1, args_have C l m s vs m1 s' /\ says u vs v /\ m' = (mkRid KUser k, v) :: m1)
  /\ (forall e m' s', eval rid_eqb (nodes C) (mkRid KUser k) m s (Err e) m' s' ->
        args_raise C l m s e m' s' \/ exists vs, args_have C l m s vs m' s' /\ forall v, ~ says u vs v)
  /\ (forall e m' s', args_raise C l m s e m' s' -> eval rid_eqb (nodes C) (mkRid KUser k) m s (Err e) m' s')
  /\ (forall vs m' s', args_have C l m s vs m' s' -> (forall v, ~ says u vs v) ->
        exists e, eval rid_eqb (nodes C) (mkRid KUser k) m s (Err e) m' s').
Proof.
  intros U A N. destruct (user_form u l A) as (g & F & G). pose proof (user_node k u U) as ND.
  split; [|split; [|split]].
  - intros v m' s'. split.
    + intros H. inversion H as [r0 m0 s0 v0 K|r0 m0 s0 v0 m1 s1 K X|]; subst; [congruence|]. rewrite ND in X. apply F in X.
      apply ev_list_inv in X as [(e & Q & _)|(vs & m2 & s2 & P & X)]; [discriminate|].
      apply ret_runs in X as (Q & -> & ->). exists vs, m2. split; [exact P|]. split; [|reflexivity]. apply G; [now apply args_length in P|congruence].
    + intros (vs & m1 & P & S & ->). apply eval_new; [exact N|]. rewrite ND. apply F. eapply ev_list_runs; [exact P|]. apply ret_runs.
      apply G in S; [|now apply args_length in P]. auto.
  - intros e m' s' H. inversion H as [| |r0 m0 s0 e0 m1 s1 K X]; subst. rewrite ND in X. apply F in X.
    apply ev_list_inv in X as [(e' & Q & R)|(vs & m2 & s2 & P & X)].
    + left. injection Q as <-. exact R.
    + right. apply ret_runs in X as (Q & -> & ->). exists vs. split; [exact P|]. intros v S. apply G in S; [congruence|now apply args_length in P].
  - intros e m' s' R. apply eval_raise; [exact N|]. rewrite ND. apply F. now apply ev_list_raises.
  - intros vs m' s' P S. destruct (g vs) as [v|e] eqn:Q.
    + exfalso. apply (S v). apply G; [now apply args_length in P|exact Q].
    + exists e. apply eval_raise; [exact N|]. rewrite ND. apply F. eapply ev_list_runs; [exact P|]. apply ret_runs. auto.
Qed.
Lemma reference_fails k u l m s vs m' s' e : nth_error (k_users C) k = Some u -> arguments u = Some l ->
  RefEngine.lookup rid_eqb (mkRid KUser k) m = None -> args_have C l m s vs m' s' -> computes u vs = Err e ->
  eval rid_eqb (nodes C) (mkRid KUser k) m s (Err e) m' s'.
Proof.
  intros U A N P Q. apply eval_raise; [exact N|]. rewrite (user_node k u U). apply (user_computes u l A).
  eapply ev_list_runs; [exact P|]. apply ret_runs. auto.
Qed.
End Eval.

Lemma none_bits : num_bits (RVal VNone) = Err TypeError.
Proof. reflexivity. Qed.
Lemma text_bits x : text x -> num_bits x = Err TypeError.
Proof. now intros []. Qed.
Lemma number_num p x : number p x -> is_num x = true /\ is_none x = false /\ is_text x = false.
Proof. now intros []. Qed.
Lemma text_num x : text x -> is_num x = false /\ is_none x = false /\ is_text x = true.
Proof. now intros []. Qed.
Lemma none_op op x y : op <> OpEq -> op <> OpNe -> x = RVal VNone \/ y = RVal VNone -> num_op op x y = Err TypeError.
Proof.
  intros O O' H. assert (E : num_op op x y = other_op op x y).
  { unfold num_op. destruct H as [-> | ->]; [reflexivity|]. destruct (num_bits x); reflexivity. }
  rewrite E. unfold other_op. assert (T : is_none x || is_none y = true) by (destruct H as [-> | ->]; [reflexivity|apply orb_true_r]).
  rewrite T. destruct op; congruence.
Qed.
Lemma text_op op x y p : op <> OpEq -> op <> OpNe -> op <> OpMul -> number p x /\ text y \/ text x /\ number p y -> num_op op x y = Err TypeError.
Proof.
  intros O O' O2 H. destruct H as [(X & Y)|(X & Y)].
  - destruct (number_num p x X) as (A & B & D), (text_num y Y) as (A' & B' & D'). unfold num_op. rewrite (text_bits y Y).
    assert (E : (match num_bits x with Ok _ | Err _ => other_op op x y end) = other_op op x y) by now destruct (num_bits x).
    replace (match num_bits x with Ok _ => other_op op x y | Err _ => other_op op x y end) with (other_op op x y).
    unfold other_op. rewrite A, B, B', D', D, A'. cbn. destruct op; congruence.
  - destruct (number_num p y Y) as (A & B & D), (text_num x X) as (A' & B' & D'). unfold num_op. rewrite (text_bits x X).
    unfold other_op. rewrite A, B, B', D', D, A'. cbn. destruct op; congruence.
Qed.
Lemma min_max_fails pick xs : Forall number_or_none xs -> (List.length xs <= 1)%nat \/ In (RVal VNone) xs -> min_max pick xs = Err TypeError.
Proof.
  intros F H. assert (CE : forall x, number_or_none x -> comparable x = Err TypeError \/ exists p, comparable x = Ok p).
  { intros x [|p v N]; [now left|]. right. exists p. now apply comparable_bits, number_bits. }
  destruct xs as [|x [|y r]]; [reflexivity| |].
  - cbn [min_max]. inversion F as [|a b X _]; subst. destruct (CE x X) as [-> |(p & ->)]; reflexivity.
  - destruct H as [H|H]; [cbn in H; lia|]. assert (B : forallb (fun v => is_num v || is_none v) (x :: y :: r) = true).
    { apply forallb_forall. intros z Z. rewrite Forall_forall in F. destruct (F z Z) as [|p v N]; [reflexivity|].
      destruct (number_num p v N) as (-> & _ & _). reflexivity. }
    set (tl := y :: r) in *. cbn [min_max]. unfold tl at 1. rewrite B. inversion F as [|a b X T]; subst.
    destruct (CE x X) as [-> |(p & E)]; [reflexivity|]. rewrite E. cbn [rbind].
    destruct H as [-> |H]; [discriminate|]. assert (G : rmap_list comparable tl = Err TypeError).
    { clear -H T CE. induction tl as [|z t IH]; [destruct H|]. inversion T as [|a b Z T']; subst. cbn [rmap_list].
      destruct (CE z Z) as [-> |(p & E)]; [reflexivity|]. rewrite E. cbn [rbind]. destruct H as [-> |H]; [discriminate|]. now rewrite IH. }
    now rewrite G.
Qed.
Lemma fails_computes u vs e : fails u vs e -> computes u vs = Err e.
Proof.
  intros H. destruct H as [op a b x y O O' H|op a b x y p O O' O2 H|a b x y p X Y|a x H|a x H|l xs F H|l xs F H|a b x y p stop X Y L|a b x y start q X Y L|a x p X L|a x H|g l vs e H];
    cbn [computes].
  - now apply none_op.
  - now apply (text_op op x y p).
  - apply number_bits in X, Y. unfold num_op. now rewrite X, Y.
  - destruct H as [-> |H]; [reflexivity|]. now rewrite (text_bits x H).
  - destruct H as [|p v N]; [reflexivity|]. now destruct N.
  - now apply min_max_fails.
  - now apply min_max_fails.
  - unfold slice_ranges. apply number_bits in X. assert (E : opt_num_bits x = Ok (Some p)).
    { destruct x as [[]| | | |]; cbn in X |- *; try discriminate; injection X as <-; reflexivity. }
    rewrite E. cbn [rbind]. apply bound_bits in Y. rewrite Y. cbn [rbind]. unfold mk_srange. replace (0 <=? p) with false by lia. reflexivity.
  - unfold slice_ranges. apply bound_bits in X. rewrite X. cbn [rbind]. apply number_bits in Y. assert (E : opt_num_bits y = Ok (Some q)).
    { destruct y as [[]| | | |]; cbn in Y |- *; try discriminate; injection Y as <-; reflexivity. }
    rewrite E. cbn [rbind]. unfold mk_srange. set (s := match start with Some p => p | None => 0 end) in *.
    destruct (0 <=? s) eqn:S; [|reflexivity]. cbn [passert rbind]. destruct (0 <=? q) eqn:Q; [|reflexivity]. cbn [passert rbind].
    replace (s <=? q) with false by lia. reflexivity.
  - unfold num_ranges. apply number_bits in X. rewrite X. cbn [rbind]. replace (0 <=? p) with false by lia. reflexivity.
  - unfold num_ranges. destruct H as [-> |H]; [reflexivity|]. now rewrite (text_bits x H).
  - exact H.
Qed.

Lemma reference_errors C k u l m s vs m' s' e : nth_error (k_users C) k = Some u -> arguments u = Some l ->
  RefEngine.lookup rid_eqb (mkRid KUser k) m = None -> args_have C l m s vs m' s' -> fails u vs e ->
  eval rid_eqb (nodes C) (mkRid KUser k) m s (Err e) m' s'
  /\ forall r m2 s2, eval rid_eqb (nodes C) (mkRid KUser k) m s r m2 s2 -> r = Err e.
Proof.
  intros U A N P F. assert (E : eval rid_eqb (nodes C) (mkRid KUser k) m s (Err e) m' s').
  { eapply reference_fails; eauto. now apply fails_computes. }
  split; [exact E|]. intros r m2 s2 R. symmetry. now destruct (eval_det _ _ _ _ _ _ _ _ E _ _ _ R).
Qed.

Lemma false_values v : truthy v = false <-> counts_as_false v.
Proof.
  split.
  - destruct v as [[|n|p|l|l|l|]| |l|b|]; cbn; try discriminate.
    + constructor.
    + intros H. assert (n = 0) by lia. subst. constructor.
    + intros H. assert (p = 0 \/ p = 2 ^ 63) as [->| ->] by lia; constructor.
    + destruct l; [constructor|discriminate].
    + destruct l; [constructor|discriminate].
    + destruct l; [constructor|discriminate].
    + destruct l; [constructor|discriminate].
    + intros H. constructor. lia.
  - intros [| | | | | | | |b H]; try reflexivity. cbn. lia.
Qed.

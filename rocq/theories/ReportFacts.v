(** Proofs: what the error of a failed pack() or unpack() tells. *)
From Verif Require Import Base BaseProofs Marshal Range RangeRef RangeSpec IoBuffer IoSpec IoProofs IoFacts IoOutput
  RefEngine RefSpec RefProofs RefStatic BufferModel BufferSpec BufferPlace BufferFacts BufferPack BufferTrip BufferErrors
  BufferTypesFacts BufferReport ReportSpec.
From Coq Require Import ZArith List Bool String Sorted Lia ZifyBool ZifyNat.
Import ListNotations.
Open Scope list_scope.
Open Scope Z_scope.
Ltac Zify.zify_post_hook ::= Z.div_mod_to_equations.

(** ** Lines *)
Lemma insert_line_in x l y : In y (insert_line x l) <-> y = x \/ In y l.
Proof.
  induction l as [|z l IH]; cbn [insert_line In]; [intuition|]. destruct (String.ltb z x); cbn [In]; [rewrite IH|]; intuition.
Qed.
Lemma sort_lines_in l y : In y (sort_lines l) <-> In y l.
Proof. induction l as [|x l IH]; cbn [sort_lines fold_right In]; [tauto|]. fold (sort_lines l). rewrite insert_line_in, IH. intuition. Qed.
Definition not_after (a b : string) : Prop := String.ltb b a = false.
Lemma not_after_refl a : not_after a a.
Proof. apply ltb_irrefl. Qed.
Lemma ltb_not_after a b : String.ltb a b = true -> not_after a b.
Proof.
  intros H. unfold not_after. destruct (String.ltb b a) eqn:E; [|reflexivity].
  pose proof (ltb_trans _ _ _ H E) as T. rewrite ltb_irrefl in T. discriminate.
Qed.
Lemma not_after_trans a b c : not_after a b -> not_after b c -> not_after a c.
Proof.
  intros H1 H2. destruct (string_dec a b) as [->|N]; [exact H2|]. destruct (string_dec b c) as [->|N2]; [exact H1|].
  apply ltb_not_after. eapply ltb_trans; apply ltb_total; eauto.
Qed.
Lemma insert_line_sorted x l : StronglySorted not_after l -> StronglySorted not_after (insert_line x l).
Proof.
  induction 1 as [|y l S IH F]; cbn [insert_line]; [repeat constructor|].
  destruct (String.ltb y x) eqn:E.
  - constructor; [exact IH|]. apply Forall_forall. intros z Hz. apply insert_line_in in Hz. destruct Hz as [->|Hz].
    + now apply ltb_not_after.
    + exact (proj1 (Forall_forall _ _) F z Hz).
  - constructor; [constructor; assumption|]. constructor; [exact E|]. eapply Forall_impl; [|exact F].
    intros z Hz. exact (not_after_trans _ _ _ E Hz).
Qed.
Lemma sort_lines_sorted l : StronglySorted not_after (sort_lines l).
Proof. induction l; cbn [sort_lines fold_right]; [constructor|]. now apply insert_line_sorted. Qed.
Lemma group_lines_in l y : In y (group_lines l) <-> In y l.
Proof.
  induction l as [|x l IH]; cbn [group_lines In]; [tauto|]. destruct (group_lines l) as [|z t] eqn:E.
  - cbn [In] in *. intuition.
  - destruct (String.eqb_spec x z) as [->|N]; cbn [In] in *; intuition.
Qed.
Lemma group_lines_sorted l : StronglySorted not_after l -> StronglySorted (fun a b => String.ltb a b = true) (group_lines l).
Proof.
  induction 1 as [|x l S IH F]; cbn [group_lines]; [constructor|]. pose proof (group_lines_in l) as G.
  destruct (group_lines l) as [|z t] eqn:E; [repeat constructor|].
  destruct (String.eqb_spec x z) as [->|N]; [exact IH|].
  assert (L : String.ltb x z = true).
  { apply ltb_total; [congruence|]. apply (proj1 (Forall_forall _ _) F). apply G. now left. }
  inversion IH as [|? ? S2 F2]; subst. constructor; [exact IH|]. constructor; [exact L|].
  eapply Forall_impl; [|exact F2]. intros a Ha. exact (ltb_trans _ _ _ L Ha).
Qed.

Section Lines.
Variable safe : rid -> string.
Variable show : rv -> res string.
Lemma pairs_ok l : forall ps, Marshal.rmap_list (fun p => let* t := show (snd p) in Ok (safe (fst p), t)) l = Ok ps ->
  forall a t, In (a, t) ps <-> exists r v, In (r, v) l /\ a = safe r /\ show v = Ok t.
Proof.
  induction l as [|[r v] l IH]; intros ps H a t; cbn [Marshal.rmap_list fst snd rbind] in H.
  - inversion H; subst. split; [intros []|intros (r & v & [] & _)].
  - destruct (show v) as [t0|] eqn:E; [|discriminate]. cbn [rbind] in H.
    destruct (Marshal.rmap_list _ l) as [ps'|] eqn:E2; [|discriminate]. cbn [rbind] in H. inversion H; subst.
    cbn [In]. rewrite (IH ps' eq_refl a t). split.
    + intros [K|(r1 & v1 & K1 & K2 & K3)]; [inversion K; subst; exists r, v; auto|exists r1, v1; auto].
    + intros (r1 & v1 & [K|K] & K2 & K3); [inversion K; subst; left; congruence|right; exists r1, v1; auto].
Qed.
Lemma pairs_err l : forall e, Marshal.rmap_list (fun p => let* t := show (snd p) in Ok (safe (fst p), t)) l = Err e ->
  exists l1 r v l2, l = l1 ++ (r, v) :: l2 /\ Forall (fun p => exists t, show (snd p) = Ok t) l1 /\ show v = Err e.
Proof.
  induction l as [|[r v] l IH]; intros e H; cbn [Marshal.rmap_list fst snd rbind] in H; [discriminate|].
  destruct (show v) as [t0|e0] eqn:E; cbn [rbind] in H.
  - destruct (Marshal.rmap_list _ l) as [ps'|] eqn:E2; cbn [rbind] in H; [discriminate|]. inversion H; subst.
    destruct (IH e eq_refl) as (l1 & r1 & v1 & l2 & -> & F & S). exists ((r, v) :: l1), r1, v1, l2.
    split; [reflexivity|]. split; [constructor; [cbn [snd]; eauto|exact F]|exact S].
  - inversion H; subst. exists [], r, v, l. repeat split; [constructor|exact E].
Qed.
Lemma resolved_ok m l : resolved_lines safe show m = Ok l -> lists_resolved safe show m l.
Proof.
  unfold resolved_lines. destruct (Marshal.rmap_list _ (rev m)) as [ps|] eqn:E; [|discriminate]. cbn [rbind]. intros H. injection H as <-.
  split; [apply group_lines_sorted, sort_lines_sorted|]. intros x. rewrite group_lines_in, sort_lines_in, in_map_iff.
  pose proof (pairs_ok _ _ E) as P. split.
  - intros ((a & t) & K & I). apply filter_In in I. destruct I as (I & N). cbn [fst snd] in *. apply P in I. destruct I as (r & v & I & -> & S).
    exists r, v, t. split; [now apply in_rev in I|]. split; [exact S|]. split; [|symmetry; exact K].
    intros D. rewrite D, String.eqb_refl in N. discriminate.
  - intros (r & v & t & I & S & N & ->). exists (safe r, t). split; [reflexivity|]. apply filter_In. split.
    + apply P. exists r, v. split; [now apply -> in_rev|]. auto.
    + cbn [fst snd]. destruct (String.eqb_spec (safe r) t); [contradiction|reflexivity].
Qed.
Lemma resolved_err m e : resolved_lines safe show m = Err e ->
  exists later r v earlier, m = later ++ (r, v) :: earlier /\ Forall (fun p => exists t, show (snd p) = Ok t) earlier /\ show v = Err e.
Proof.
  unfold resolved_lines. destruct (Marshal.rmap_list _ (rev m)) as [ps|] eqn:E; [discriminate|]. cbn [rbind]. intros H. injection H as <-.
  destruct (pairs_err _ _ E) as (l1 & r & v & l2 & K & F & S). exists (rev l2), r, v, (rev l1). split; [|split; [now apply Forall_rev|exact S]].
  rewrite <- (rev_involutive m), K, rev_app_distr. cbn [rev]. now rewrite <- app_assoc.
Qed.
End Lines.

(** ** The chain of references *)
Section Chain.
Variable C : cls.
Notation deref := (deref rid_eqb (nodes C)).
Notation evals := (eval rid_eqb (nodes C)).

Definition blames (o : outcome rid rv) (bad : rid) (mb : memory) (sb : bst) (under : list rid) (known : memory) : Prop :=
  ends_in C (nodes C bad) mb sb o known
  /\ match o with OOk _ => False | ORaise _ => True | OCyclic r => In r (bad :: under) end.

Definition told_ref (r : rid) (c : ctx rid rv) (s : bst) (o : outcome rid rv) (c' : ctx rid rv) : Prop :=
  match o with
  | OOk _ => c_exc c' = None
  | _ => (o = OCyclic r /\ In r (c_nodes c) /\ c_exc c' = None /\ c_cache c' = c_cache c)
         \/ exists l bad m1 s1, needs rid_eqb (nodes C) l r (c_cache c) s bad m1 s1 /\ RefEngine.lookup rid_eqb bad m1 = None
            /\ c_exc c' = Some (bad :: rev l ++ c_stack c) /\ blames o bad m1 s1 (rev l ++ c_nodes c) (c_cache c')
  end.
Definition told_run (p : bprog) (c : ctx rid rv) (s : bst) (o : outcome rid rv) (c' : ctx rid rv) : Prop :=
  match o with
  | OOk _ => c_exc c' = None
  | _ => (c_exc c' = None /\ ends_in C p (c_cache c) s o (c_cache c') /\ match o with OCyclic r => In r (c_nodes c) | _ => True end)
         \/ exists r0 m0 s0 l bad m1 s1, asks rid_eqb (nodes C) p (c_cache c) s r0 m0 s0
            /\ needs rid_eqb (nodes C) l r0 m0 s0 bad m1 s1 /\ RefEngine.lookup rid_eqb bad m1 = None
            /\ c_exc c' = Some (bad :: rev l ++ c_stack c) /\ blames o bad m1 s1 (rev l ++ c_nodes c) (c_cache c')
  end.

Lemma told_after_ref r k c s v c1 s1 o c' : told_run (k v) c1 s1 o c' -> evals r (c_cache c) s (Ok v) (c_cache c1) s1 ->
  c_stack c1 = c_stack c -> c_nodes c1 = c_nodes c -> told_run (PRef r k) c s o c'.
Proof.
  intros T E K1 K2. destruct o as [w|e|x]; cbn [told_run] in *; [exact T| |];
    (destruct T as [(A & B & D)|(r0 & m0 & s0 & l & bad & m1 & s2 & A & B & D & F & G)];
     [left; split; [exact A|]; split; [eapply ends_after; eassumption|congruence || exact D || (rewrite <- K2; exact D)]
     |right; exists r0, m0, s0, l, bad, m1, s2; rewrite K1 in F; rewrite K2 in G; split; [eapply asks_after; eassumption|auto]]).
Qed.
Lemma told_after_ctx f k c s v s1 o c' : told_run (k v) c s1 o c' -> f s = (Ok v, s1) -> told_run (PCtx f k) c s o c'.
Proof.
  intros T E. destruct o as [w|e|x]; cbn [told_run] in *; [exact T| |];
    (destruct T as [(A & B & D)|(r0 & m0 & s0 & l & bad & m1 & s2 & A & B & D & F & G)];
     [left; split; [exact A|]; split; [eapply ends_after_ctx; eassumption|exact D]
     |right; exists r0, m0, s0, l, bad, m1, s2; split; [eapply asks_ctx; eassumption|auto]]).
Qed.

Lemma run_told n : (forall r c s o c' s', deref n r c s = Some (o, c', s') -> c_exc c = None -> told_ref r c s o c') ->
  forall p c s o c' s', run (deref n) p c s = Some (o, c', s') -> c_exc c = None -> told_run p c s o c'.
Proof.
  intros Hd. induction p as [v|e|r k IH|f k IH]; intros c s o c' s' H Hx; cbn [run] in H.
  - inversion H; subst. exact Hx.
  - inversion H; subst. left. split; [exact Hx|]. split; [constructor|exact Logic.I].
  - destruct (deref n r c s) as [[[o1 c1] s1]|] eqn:E; [|discriminate].
    pose proof (Hd _ _ _ _ _ _ E Hx) as T1.
    pose proof (deref_kept rid_eqb rid_eqb_spec (nodes C) _ _ _ _ _ _ _ E) as (K1 & K2 & _).
    pose proof (deref_sound rid_eqb rid_eqb_spec (nodes C) _ _ _ _ _ _ _ E) as S1.
    destruct o1 as [v|e|x].
    + eapply told_after_ref; [exact (IH v _ _ _ _ _ H T1)|exact S1|exact K2|exact K1].
    + inversion H; subst. cbn [told_run]. destruct T1 as [(A & _)|(l & bad & m1 & s2 & A & B & D & F)]; [discriminate|].
      right. exists r, (c_cache c), s, l, bad, m1, s2. split; [constructor|]. auto.
    + inversion H; subst. cbn [told_run]. destruct T1 as [(A & B & D & F)|(l & bad & m1 & s2 & A & B & D & F)].
      * inversion A; subst. left. split; [exact D|]. rewrite F. split; [constructor|exact B].
      * right. exists r, (c_cache c), s, l, bad, m1, s2. split; [constructor|]. auto.
  - destruct (f s) as [[v|e] s1] eqn:E.
    + eapply told_after_ctx; [exact (IH v _ _ _ _ _ H Hx)|exact E].
    + inversion H; subst. left. split; [exact Hx|]. split; [econstructor; eassumption|exact Logic.I].
Qed.

Lemma deref_told : forall n r c s o c' s', deref n r c s = Some (o, c', s') -> c_exc c = None -> told_ref r c s o c'.
Proof.
  induction n as [|n IH]; intros r c s o c' s' H Hx; [discriminate|].
  cbn [RefEngine.deref] in H. destruct (mem rid_eqb r (c_nodes c)) eqn:Em.
  { inversion H; subst. left. apply (mem_in rid_eqb rid_eqb_spec) in Em. auto. }
  destruct (RefEngine.lookup rid_eqb r (c_cache c)) as [w|] eqn:El.
  { inversion H; subst. exact Hx. }
  destruct (run (deref n) (nodes C r) (push r c) s) as [[[o1 c1] s1]|] eqn:E; [|discriminate].
  pose proof (run_told n IH _ _ _ _ _ _ E Hx) as T.
  pose proof (run_kept rid_eqb rid_eqb_spec (nodes C) _ _ _ _ _ _ _ E) as (K1 & K2 & _). cbn [push c_stack c_nodes] in K1, K2.
  destruct o1 as [v|e|x]; inversion H; subst; cbn [told_run told_ref] in *.
  - exact T.
  - right. destruct T as [(A & B & _)|(r0 & m0 & s0 & l & bad & m1 & s2 & A & B & D & F & G)].
    + exists [], r, (c_cache c), s. split; [constructor|]. split; [exact El|]. cbn [pop note_exc c_exc].
      rewrite A, K2. split; [reflexivity|]. split; [exact B|exact Logic.I].
    + exists (r :: l), bad, m1, s2. split; [econstructor; eassumption|]. split; [exact D|].
      cbn [pop note_exc c_exc c_cache rev push c_stack c_nodes] in *. rewrite F, <- !app_assoc. split; [reflexivity|exact G].
  - right. destruct T as [(A & B & D)|(r0 & m0 & s0 & l & bad & m1 & s2 & A & B & D & F & G)].
    + exists [], r, (c_cache c), s. split; [constructor|]. split; [exact El|]. cbn [pop note_exc c_exc].
      rewrite A, K2. split; [reflexivity|]. split; [exact B|exact D].
    + exists (r :: l), bad, m1, s2. split; [econstructor; eassumption|]. split; [exact D|].
      cbn [pop note_exc c_exc c_cache rev push c_stack c_nodes] in *. rewrite F, <- !app_assoc. split; [reflexivity|exact G].
Qed.

(** Nothing has failed so far. *)
Definition calm (w : world) : Prop := c_exc (w_ctx w) = None /\ c_stack (w_ctx w) = [].
Lemma dref_told r w x w' : cls_ok C -> rid_in C r -> wok C w -> calm w -> dref C r w = (x, w') ->
  match x with
  | Ok _ => calm w'
  | Err e => exists chain, c_exc (w_ctx w') = Some (rev chain) /\ fails_through C r (c_cache (w_ctx w)) (w_st w) e (c_cache (w_ctx w')) chain
  end.
Proof.
  intros Hok Hr (N & _) (X & S) H. unfold dref in H.
  destruct (deref (fuel C) r (w_ctx w) (w_st w)) as [[[o c'] s']|] eqn:E; [|exfalso; exact (deref_ends C Hok r _ _ Hr N E)].
  pose proof (deref_told _ _ _ _ _ _ _ E X) as T.
  pose proof (deref_kept rid_eqb rid_eqb_spec (nodes C) _ _ _ _ _ _ _ E) as (K1 & K2 & _).
  destruct o as [v|e|y]; inversion H; subst; cbn [told_ref w_ctx w_st] in *.
  - split; cbn [w_ctx]; congruence.
  - destruct T as [(A & _)|(l & bad & m1 & s1 & A & B & D & F & _)]; [discriminate|]. exists (l ++ [bad]).
    rewrite S, app_nil_r in D. split; [rewrite D, rev_app_distr; reflexivity|]. exists l, bad, m1, s1, (ORaise e). auto.
  - destruct T as [(_ & A & _)|(l & bad & m1 & s1 & A & B & D & F & G)]; [rewrite N in A; destruct A|]. exists (l ++ [bad]).
    rewrite S, app_nil_r in D. split; [rewrite D, rev_app_distr; reflexivity|]. exists l, bad, m1, s1, (OCyclic y).
    repeat split; auto. rewrite N, app_nil_r in G. apply in_or_app. destruct G as [->|G]; [right; now left|left; now apply in_rev].
Qed.
End Chain.

(** ** pack() *)
Section Raises.
Variable safe : rid -> string.
Variable show : rv -> res string.
Variable C : cls.
Notation evals := (eval rid_eqb (nodes C)).

Definition recorded (w : world) : list rid := match c_exc (w_ctx w) with Some l => rev l | None => [] end.

Lemma output_set_err b l x e x' : buf_ok b -> out_ok x -> output_set b l x = (Err e, x') ->
  ~ part_fits (Some (b, l)) /\ (Forall closed l -> e = ValueError).
Proof.
  intros K O H. assert (G : Forall closed l -> e = ValueError /\ zlen (pad_to_byte (buf_bits b)) < zlen (all_positions l)).
  { intros Hc. destruct (output_set_spec b l x K (proj1 (Forall_closed l) Hc) O) as (S1 & S2). rewrite total_len_positions in S1, S2 by auto.
    destruct (Z_le_gt_dec (zlen (all_positions l)) (zlen (pad_to_byte (buf_bits b)))) as [Hle|Hgt].
    - destruct (S1 Hle) as (y & Y & _). rewrite Y in H. discriminate.
    - destruct S2 as (y & Y); [lia|]. rewrite Y in H. inversion H; subst. split; [reflexivity|lia]. }
  split; [|intros Hc; exact (proj1 (G Hc))]. intros (Hc & Hl). destruct (G Hc). lia.
Qed.

Lemma pack_body_err i w e w' : cls_ok C -> packers_ok C -> field_no C i -> wok C w -> out_ok (w_out w) -> calm w ->
  pack_body C i w = (Err e, w') -> field_not_packed C i (c_cache (w_ctx w)) (w_st w) e (c_cache (w_ctx w')) (recorded w').
Proof.
  intros Hok Hp Hi W O X H. unfold pack_body in H. unfold sbind at 1 in H.
  assert (R1 : rid_in C (mkRid KPack i)) by (apply in_field; [reflexivity|exact Hi]).
  assert (R2 : rid_in C (mkRid KPackPos i)) by (apply in_field; [reflexivity|exact Hi]).
  destruct (dref C (mkRid KPack i) w) as [[p|e1] w1] eqn:E1.
  2:{ inversion H; subst. pose proof (dref_told C _ _ _ _ Hok R1 W X E1) as (chain & A & B). left. unfold recorded. rewrite A, rev_involutive. exact B. }
  pose proof (dref_told C _ _ _ _ Hok R1 W X E1) as X1. cbn beta iota in X1.
  destruct (dref_cases C _ _ _ _ E1 W) as (W1 & O1 & _ & V1 & K1). cbn [kind_ok r_kind] in K1. destruct K1 as (b & -> & Kb). specialize (Kb Hp).
  unfold sbind at 1 in H. destruct (dref C (mkRid KPackPos i) w1) as [[q|e1] w2] eqn:E2.
  2:{ inversion H; subst. pose proof (dref_told C _ _ _ _ Hok R2 W1 X1 E2) as (chain & A & B). right. left. exists b, (c_cache (w_ctx w1)), (w_st w1).
      split; [exact V1|]. unfold recorded. rewrite A, rev_involutive. exact B. }
  pose proof (dref_told C _ _ _ _ Hok R2 W1 X1 E2) as X2. cbn beta iota in X2.
  destruct (dref_cases C _ _ _ _ E2 W1) as (W2 & O2 & _ & V2 & K2). cbn [kind_ok r_kind] in K2. destruct K2 as (l & ->).
  cbn in H. unfold out_set in H. destruct (output_set b l (w_out w2)) as [[[]|e2] x] eqn:Eo; inversion H; subst.
  assert (O2' : out_ok (w_out w2)) by (rewrite O2, O1; exact O).
  destruct (output_set_err _ _ _ _ _ Kb O2' Eo) as (F1 & F2).
  right. right. exists b, (c_cache (w_ctx w1)), (w_st w1), l, (w_st w2). cbn [w_ctx]. split; [exact V1|]. split; [exact V2|]. split; [exact F1|]. split; [exact F2|].
  unfold recorded. cbn [w_ctx]. destruct X2 as (-> & _). reflexivity.
Qed.

Lemma numbered_no i f : In (i, f) (numbered C) -> field_no C i.
Proof. intros H. apply numbered_in in H. apply nth_error_Some. congruence. Qed.

Lemma report_cases attr e c : match report_error safe show attr e c with
  | Reported p => ~ no_exception e /\ tells safe show p attr e (c_cache c) (match c_exc c with Some l => rev l | None => [] end)
  | Bare e' => (no_exception e /\ e' = e)
      \/ (~ no_exception e /\ exists later r v earlier, c_cache c = later ++ (r, v) :: earlier
           /\ Forall (fun p => exists t, show (snd p) = Ok t) earlier /\ show v = Err e')
  end.
Proof.
  assert (D : no_exception e \/ ~ no_exception e) by (unfold no_exception; destruct e; (left; tauto) || (right; intros [?|?]; discriminate)).
  assert (U : ~ no_exception e -> report_error safe show attr e c
    = match resolved_lines safe show (c_cache c) with Ok l => Reported (mkReport attr e l (stack_lines safe c)) | Err e0 => Bare e0 end).
  { unfold no_exception, report_error. destruct e; try reflexivity; intros N; exfalso; tauto. }
  destruct D as [D|D].
  - destruct D as [-> | ->]; cbn [report_error]; left; unfold no_exception; auto.
  - rewrite (U D). destruct (resolved_lines safe show (c_cache c)) as [l|e0] eqn:E.
    + split; [exact D|]. split; [reflexivity|]. split; [reflexivity|]. split; [exact (resolved_ok safe show _ _ E)|reflexivity].
    + right. split; [exact D|]. exact (resolved_err safe show _ _ E).
Qed.
Lemma wrapped_exception e : ~ no_exception e -> wrapped e = InstructBufferError.
Proof. unfold no_exception. destruct e; try reflexivity; intros N; exfalso; tauto. Qed.
Lemma wrapped_no_exception e : no_exception e -> wrapped e = e.
Proof. intros [-> | ->]; reflexivity. Qed.

Lemma pack_field_eq i f w : pack_field C i f w
  = match dref C (f_pack_if f) w with
    | (Err e, w1) => (Err e, w1)
    | (Ok c, w1) => if truthy c then wrap (pack_body C i) w1 else (Ok tt, w1)
    end.
Proof. unfold pack_field, sbind at 1. destruct (dref C (f_pack_if f) w) as [[c|e] w1]; [|reflexivity]. destruct (truthy c); reflexivity. Qed.

Lemma sforeach_cons {S A} (f : A -> stM S unit) x l w :
  sforeach (x :: l) f w = match f x w with (Ok _, w1) => sforeach l f w1 | (Err e, w1) => (Err e, w1) end.
Proof. cbn [sforeach]. unfold sbind. destruct (f x w) as [[[]|e] w1]; reflexivity. Qed.

Lemma packing_raises_spec l : forall w, cls_ok C -> packers_ok C -> incl l (numbered C) -> wok C w -> out_ok (w_out w) -> calm w ->
  s_input (w_st w) = None ->
  match packing_raises safe show C l w, sforeach l (fun p => pack_field C (fst p) (snd p)) w with
  | None, (Ok _, w') => exists bytes, rbind (buf_bytes (ba_view (w_out w'))) (fix_size C) = Ok bytes
  | Some (Bare e), (Ok _, w') => rbind (buf_bytes (ba_view (w_out w'))) (fix_size C) = Err e
  | Some x, (Err e', _) => exists before i f after ps m s, l = before ++ (i, f) :: after
      /\ packing C before (c_cache (w_ctx w)) (w_st w) ps m s /\ Forall part_fits ps
      /\ ((x = Bare e' /\ fails C (f_pack_if f) m s e')
          \/ exists c m1 s1 e known chain, evals (f_pack_if f) m s (Ok c) m1 s1 /\ truthy c = true /\ field_not_packed C i m1 s1 e known chain
             /\ e' = wrapped e
             /\ match x with
                | Reported p => ~ no_exception e /\ tells safe show p (f_name f) e known chain
                | Bare e0 => (no_exception e /\ e0 = e) \/ (~ no_exception e /\ unshown show known e0)
                end)
  | _, _ => False
  end.
Proof.
  induction l as [|[i f] l IH]; intros w Hok Hp Hl W O X N; cbn [packing_raises fst snd].
  - cbn [sforeach sret]. destruct (rbind (buf_bytes (ba_view (w_out w))) (fix_size C)) as [b|e] eqn:E; [eauto|reflexivity].
  - rewrite sforeach_cons. cbn [fst snd]. rewrite pack_field_eq.
    destruct (field_refs C i f Hok (Hl _ (or_introl eq_refl))) as (R1 & _).
    destruct (dref C (f_pack_if f) w) as [[c|e1] w1] eqn:E1.
    2:{ exists [], i, f, l, [], (c_cache (w_ctx w)), (w_st w). split; [reflexivity|]. split; [constructor|]. split; [constructor|]. left.
        split; [reflexivity|]. eapply dref_err; eauto. }
    pose proof (dref_told C _ _ _ _ Hok R1 W X E1) as X1. cbn beta iota in X1.
    destruct (dref_cases C _ _ _ _ E1 W) as (W1 & O1 & N1 & V1 & _).
    assert (O1' : out_ok (w_out w1)) by (rewrite O1; exact O).
    (* what the rest gives *)
    assert (Step : forall w2 p, wok C w2 -> out_ok (w_out w2) -> calm w2 -> s_input (w_st w2) = None -> part_fits p ->
      (forall l' ps m' s', packing C l' (c_cache (w_ctx w2)) (w_st w2) ps m' s' -> packing C ((i, f) :: l') (c_cache (w_ctx w)) (w_st w) (p :: ps) m' s') ->
      match packing_raises safe show C l w2, sforeach l (fun p => pack_field C (fst p) (snd p)) w2 with
      | None, (Ok _, w') => exists bytes, rbind (buf_bytes (ba_view (w_out w'))) (fix_size C) = Ok bytes
      | Some (Bare e), (Ok _, w') => rbind (buf_bytes (ba_view (w_out w'))) (fix_size C) = Err e
      | Some x, (Err e', _) => exists before j g after ps m s, (i, f) :: l = before ++ (j, g) :: after
          /\ packing C before (c_cache (w_ctx w)) (w_st w) ps m s /\ Forall part_fits ps
          /\ ((x = Bare e' /\ fails C (f_pack_if g) m s e')
              \/ exists c m1 s1 e known chain, evals (f_pack_if g) m s (Ok c) m1 s1 /\ truthy c = true /\ field_not_packed C j m1 s1 e known chain
                 /\ e' = wrapped e
                 /\ match x with
                    | Reported p => ~ no_exception e /\ tells safe show p (f_name g) e known chain
                    | Bare e0 => (no_exception e /\ e0 = e) \/ (~ no_exception e /\ unshown show known e0)
                    end)
      | _, _ => False
      end).
    { intros w2 p W2 O2 X2 N2 F2 K2. specialize (IH w2 Hok Hp (fun x Hx => Hl x (or_intror Hx)) W2 O2 X2 N2).
      destruct (packing_raises safe show C l w2) as [x|]; destruct (sforeach l (fun p0 => pack_field C (fst p0) (snd p0)) w2) as [[[]|e'] w'].
      - exact IH.
      - destruct x as [pp|ee];
        (destruct IH as (before & j & g & after & ps & m & s & A & B & D & F); exists ((i, f) :: before), j, g, after, (p :: ps), m, s;
         split; [now rewrite A|]; split; [now apply K2|]; split; [now constructor|exact F]).
      - exact IH.
      - exact IH. }
    destruct (truthy c) eqn:Tc.
    + destruct (pack_body C i w1) as [[[]|e2] w2] eqn:E2; unfold wrap; rewrite E2.
      * assert (E3 : pack_field C i f w = (Ok tt, w2)) by (rewrite pack_field_eq, E1, Tc; unfold wrap; now rewrite E2).
        destruct (pack_field_ok C i f w w2 Hp W O E3) as (W2 & O2 & N2 & p & F2 & _ & K2).
        apply (Step w2 p); auto; [|congruence].
        (* calm *)
        unfold pack_body in E2. apply sbind_ok in E2. destruct E2 as (p1 & w3 & E4 & E2). apply sbind_ok in E2. destruct E2 as (p2 & w4 & E5 & E2).
        assert (Q1 : rid_in C (mkRid KPack i)) by (apply in_field; [reflexivity|eapply numbered_no, Hl; now left]).
        assert (Q2 : rid_in C (mkRid KPackPos i)) by (apply in_field; [reflexivity|eapply numbered_no, Hl; now left]).
        pose proof (dref_told C _ _ _ _ Hok Q1 W1 X1 E4) as X3. cbn beta iota in X3.
        destruct (dref_cases C _ _ _ _ E4 W1) as (W3 & _).
        pose proof (dref_told C _ _ _ _ Hok Q2 W3 X3 E5) as X4. cbn beta iota in X4.
        apply sbind_ok in E2. destruct E2 as (b & w5 & E6 & E2). apply sbind_ok in E2. destruct E2 as (r & w6 & E7 & E2).
        unfold slift in E6, E7. destruct (as_buf p1); inversion E6; subst. destruct (as_ranges p2); inversion E7; subst.
        unfold out_set in E2. destruct (output_set _ _ (w_out w6)) as [[[]|] x]; inversion E2; subst. exact X4.
      * assert (Fi : field_no C i) by (eapply numbered_no, Hl; now left).
        pose proof (pack_body_err i w1 e2 w2 Hok Hp Fi W1 O1' X1 E2) as B.
        pose proof (report_cases (f_name f) e2 (w_ctx w2)) as Rc.
        destruct (report_error safe show (f_name f) e2 (w_ctx w2)) as [pp|ee];
        (exists [], i, f, l, [], (c_cache (w_ctx w)), (w_st w); split; [reflexivity|]; split; [constructor|]; split; [constructor|]; right;
         exists c, (c_cache (w_ctx w1)), (w_st w1), e2, (c_cache (w_ctx w2)), (recorded w2);
         split; [exact V1|]; split; [exact Tc|]; split; [exact B|]; split; [reflexivity|exact Rc]).
    + apply (Step w1 None); auto; [congruence|exact Logic.I|]. intros l' ps m' s' K. eapply packing_skip; eauto.
Qed.

Theorem pack_raises_spec o : cls_ok C -> packers_ok C ->
  match pack_raises safe show C o with
  | None => exists bytes o', buffer_pack C o = (Ok bytes, o')
  | Some (Reported p) => (exists o', buffer_pack C o = (Err InstructBufferError, o'))
      /\ exists i f e known chain, pack_stops_at C o i f e known chain /\ tells safe show p (f_name f) e known chain
  | Some (Bare e) =>
      ((exists o', buffer_pack C o = (Err e, o'))
       /\ (no_exception e \/ pack_condition_raises C o e \/ (e = AssertionError /\ packed_too_long C o)))
      \/ ((exists o', buffer_pack C o = (Err InstructBufferError, o'))
          /\ exists i f e' known chain, pack_stops_at C o i f e' known chain /\ unshown show known e)
  end.
Proof.
  intros Hok Hp. unfold pack_raises.
  pose proof (packing_raises_spec (numbered C) (start_pack o) Hok Hp (incl_refl _) (wok_new C _) out_ok_new (conj eq_refl eq_refl) eq_refl) as S.
  pose proof (buffer_pack_err C o) as PE. unfold buffer_pack in *.
  destruct (packing_raises safe show C (numbered C) (start_pack o)) as [[p|e]|];
    destruct (sforeach (numbered C) (fun p => pack_field C (fst p) (snd p)) (start_pack o)) as [[[]|e'] w'] eqn:E; try contradiction.
  - destruct S as (before & i & f & after & ps & m & s & A & B & D & [(F & _)|(c & m1 & s1 & e & known & chain & F1 & F2 & F3 & F4 & F5 & F6)]); [discriminate|].
    rewrite wrapped_exception in F4 by exact F5. subst e'. split; [eauto|]. exists i, f, e, known, chain.
    split; [|exact F6]. exists before, after, ps, m, s, c, m1, s1. auto 8.
  - left. split; [exists (s_obj (w_st w')); unfold rbind in *; f_equal; exact S|].
    destruct (PE e (s_obj (w_st w')) Hok Hp) as [G|[G|[(pre & i & f & post & ps & m & s & G1 & G2 & G3)|(-> & ps & m & bits & G1 & _ & G2 & G3)]]].
    + unfold rbind in *. f_equal. exact S.
    + (* the size check raises an AssertionError only *)
      subst e. exfalso. revert S. destruct (buf_bytes (ba_view (w_out w'))) as [b|] eqn:Eb; cbn [rbind].
      * unfold fix_size. destruct (k_size C) as [n|]; [|discriminate]. destruct (n =? 0); [discriminate|].
        unfold passert. destruct (zlen b <=? cdiv8 n); cbn [rbind]; discriminate.
      * destruct (pack_fields_ok C _ _ _ Hp (wok_new C _) out_ok_new E) as (_ & (KO & _) & _). unfold ba_ok in KO.
        rewrite buf_bytes_spec in Eb by exact KO. discriminate.
    + auto.
    + right. left. exists pre, i, f, post, ps, m, s. auto.
    + right. right. split; [reflexivity|]. exists ps, m, (mkBst (s_obj (w_st w')) None), bits. auto.
  - destruct S as (before & i & f & after & ps & m & s & A & B & D & [(F & G)|(c & m1 & s1 & e0 & known & chain & F1 & F2 & F3 & F4 & [(F5 & F6)|(F5 & F6)])]).
    + injection F as ->. left. split; [eauto|]. right. left. exists before, i, f, after, ps, m, s. auto.
    + left. rewrite wrapped_no_exception in F4 by exact F5. subst. split; [eauto|]. auto.
    + right. rewrite wrapped_exception in F4 by exact F5. subst. split; [eauto|]. exists i, f, e0, known, chain.
      split; [|exact F6]. exists before, after, ps, m, s, c, m1, s1. auto 8.
  - destruct S as (bytes & S). exists bytes, (s_obj (w_st w')). unfold rbind in *. f_equal. exact S.
Qed.

(** ** unpack() *)
Lemma unpack_field_eq i f w : unpack_field C i f w = wrap (unpack_body C i f) w.
Proof. reflexivity. Qed.

Lemma unpack_each_err l : forall w e w', cls_ok C -> Forall (field_no C) l -> wok C w -> calm w ->
  sforeach l (fun j => do dref C (mkRid KUnpackValue j) ;; sret tt) w = (Err e, w') ->
  exists l1 j l2 m s, l = l1 ++ j :: l2 /\ evals_all C (map (mkRid KUnpackValue) l1) (c_cache (w_ctx w)) (w_st w) m s
    /\ fails_through C (mkRid KUnpackValue j) m s e (c_cache (w_ctx w')) (recorded w').
Proof.
  induction l as [|j l IH]; intros w e w' Hok Hl W X H; cbn [sforeach] in H; [discriminate|].
  inversion Hl as [|? ? Hj Hl']; subst. unfold sbind in H.
  assert (R : rid_in C (mkRid KUnpackValue j)) by (apply in_field; [reflexivity|exact Hj]).
  destruct (dref C (mkRid KUnpackValue j) w) as [[v|e1] w1] eqn:E1.
  - pose proof (dref_told C _ _ _ _ Hok R W X E1) as X1. cbn beta iota in X1.
    destruct (dref_cases C _ _ _ _ E1 W) as (W1 & _ & _ & V1 & _).
    destruct (IH w1 e w' Hok Hl' W1 X1) as (l1 & j' & l2 & m & s & -> & A & B); [cbn [sret] in H; exact H|].
    exists (j :: l1), j', l2, m, s. split; [reflexivity|]. split; [|exact B]. cbn [map]. econstructor; eauto.
  - inversion H; subst. pose proof (dref_told C _ _ _ _ Hok R W X E1) as (chain & A & B).
    exists [], j, l, (c_cache (w_ctx w)), (w_st w). split; [reflexivity|]. split; [constructor|]. unfold recorded. rewrite A, rev_involutive. exact B.
Qed.
Lemma unpack_each_calm l : forall w w', cls_ok C -> Forall (field_no C) l -> wok C w -> calm w ->
  sforeach l (fun j => do dref C (mkRid KUnpackValue j) ;; sret tt) w = (Ok tt, w') -> calm w'.
Proof.
  induction l as [|j l IH]; intros w w' Hok Hl W X H; cbn [sforeach] in H; [inversion H; subst; exact X|].
  inversion Hl as [|? ? Hj Hl']; subst. unfold sbind in H.
  assert (R : rid_in C (mkRid KUnpackValue j)) by (apply in_field; [reflexivity|exact Hj]).
  destruct (dref C (mkRid KUnpackValue j) w) as [[v|e1] w1] eqn:E1; [|discriminate].
  pose proof (dref_told C _ _ _ _ Hok R W X E1) as X1. cbn beta iota in X1.
  destruct (dref_cases C _ _ _ _ E1 W) as (W1 & _). exact (IH w1 w' Hok Hl' W1 X1 H).
Qed.

Lemma unpack_body_told i f w x w' : cls_ok C -> In (i, f) (numbered C) -> wok C w -> calm w -> unpack_body C i f w = (x, w') ->
  match x with
  | Ok _ => calm w'
  | Err e => field_not_unpacked C i f (c_cache (w_ctx w)) (w_st w) e (c_cache (w_ctx w')) (recorded w')
  end.
Proof.
  intros Hok Hi W X H. destruct (field_refs C i f Hok Hi) as (_ & R1 & R2). pose proof (numbered_no i f Hi) as R3.
  unfold unpack_body in H. unfold sbind at 1 in H. destruct (dref C (f_unpack_if f) w) as [[c|e1] w1] eqn:E1.
  2:{ inversion H; subst. pose proof (dref_told C _ _ _ _ Hok R1 W X E1) as (chain & A & B). left. unfold recorded. rewrite A, rev_involutive. exact B. }
  pose proof (dref_told C _ _ _ _ Hok R1 W X E1) as X1. cbn beta iota in X1.
  destruct (dref_cases C _ _ _ _ E1 W) as (W1 & _ & _ & V1 & _). destruct (truthy c) eqn:Tc.
  2:{ inversion H; subst. exact X1. }
  unfold sbind at 1 in H.
  destruct (sforeach (f_unpack_after f) (fun j => do dref C (mkRid KUnpackValue j) ;; sret tt) w1) as [[[]|e2] w2] eqn:E2.
  - pose proof (unpack_each_calm _ _ _ Hok R2 W1 X1 E2) as X2. destruct (unpack_after_ok C _ _ _ W1 E2) as (W2 & V2).
    unfold sbind in H. assert (R : rid_in C (mkRid KUnpackValue i)) by (apply in_field; [reflexivity|exact R3]).
    destruct (dref C (mkRid KUnpackValue i) w2) as [[v|e3] w3] eqn:E3.
    + inversion H; subst. pose proof (dref_told C _ _ _ _ Hok R W2 X2 E3) as X3. exact X3.
    + inversion H; subst. pose proof (dref_told C _ _ _ _ Hok R W2 X2 E3) as (chain & A & B).
      right. exists c, (c_cache (w_ctx w1)), (w_st w1). split; [exact V1|]. split; [exact Tc|].
      exists (f_unpack_after f), i, [], (c_cache (w_ctx w2)), (w_st w2). split; [reflexivity|]. split; [exact V2|].
      unfold recorded. rewrite A, rev_involutive. exact B.
  - inversion H; subst. destruct (unpack_each_err _ _ _ _ Hok R2 W1 X1 E2) as (l1 & j & l2 & m & s & A & B & D).
    right. exists c, (c_cache (w_ctx w1)), (w_st w1). split; [exact V1|]. split; [exact Tc|].
    exists l1, j, (l2 ++ [i]), m, s. split; [rewrite A, <- app_assoc; reflexivity|]. auto.
Qed.

Lemma unpacking_raises_spec l : forall w, cls_ok C -> incl l (numbered C) -> wok C w -> calm w ->
  match unpacking_raises safe show C l w, sforeach l (fun p => unpack_field C (fst p) (snd p)) w with
  | None, (Ok _, w') => exists v w2, dref C (mkRid KTotal 0) w' = (Ok v, w2)
  | Some (Bare e), (Ok _, w') => exists w2, dref C (mkRid KTotal 0) w' = (Err e, w2)
  | Some x, (Err e', _) => exists before i f after m s e known chain, l = before ++ (i, f) :: after
      /\ unpacking C before (c_cache (w_ctx w)) (w_st w) m s /\ field_not_unpacked C i f m s e known chain /\ e' = wrapped e
      /\ match x with
         | Reported p => ~ no_exception e /\ tells safe show p (f_name f) e known chain
         | Bare e0 => (no_exception e /\ e0 = e) \/ (~ no_exception e /\ unshown show known e0)
         end
  | _, _ => False
  end.
Proof.
  induction l as [|[i f] l IH]; intros w Hok Hl W X; cbn [unpacking_raises fst snd].
  - cbn [sforeach sret]. destruct (dref C (mkRid KTotal 0) w) as [[v|e] w'] eqn:E; eauto.
  - rewrite sforeach_cons. cbn [fst snd]. rewrite unpack_field_eq. unfold wrap.
    destruct (unpack_body C i f w) as [[[]|e1] w1] eqn:E1.
    + pose proof (unpack_body_told i f w _ w1 Hok (Hl _ (or_introl eq_refl)) W X E1) as X1. cbn beta iota in X1.
      assert (E2 : unpack_field C i f w = (Ok tt, w1)) by (rewrite unpack_field_eq; unfold wrap; now rewrite E1).
      destruct (unpack_field_ok C _ _ _ _ W E2) as (W1 & K).
      specialize (IH w1 Hok (fun x Hx => Hl x (or_intror Hx)) W1 X1).
      destruct (unpacking_raises safe show C l w1) as [[p|e]|];
        destruct (sforeach l (fun p => unpack_field C (fst p) (snd p)) w1) as [[[]|e'] w']; try exact IH;
        (destruct IH as (before & j & g & after & m & s & e0 & known & chain & A & B & D); exists ((i, f) :: before), j, g, after, m, s, e0, known, chain;
         split; [now rewrite A|]; split; [now apply K|exact D]).
    + pose proof (unpack_body_told i f w _ w1 Hok (Hl _ (or_introl eq_refl)) W X E1) as B. cbn beta iota in B.
      pose proof (report_cases (f_name f) e1 (w_ctx w1)) as Rc.
      destruct (report_error safe show (f_name f) e1 (w_ctx w1)) as [pp|ee];
      (exists [], i, f, l, (c_cache (w_ctx w)), (w_st w), e1, (c_cache (w_ctx w1)), (recorded w1);
       split; [reflexivity|]; split; [constructor|]; split; [exact B|]; split; [reflexivity|exact Rc]).
Qed.

Theorem unpack_raises_spec b o : cls_ok C -> buf_ok b ->
  match unpack_raises safe show C b o with
  | None => exists n o', buffer_unpack C b o = (Ok n, o')
  | Some (Reported p) => (exists o', buffer_unpack C b o = (Err InstructBufferError, o'))
      /\ exists i f e known chain, unpack_stops_at C b o i f e known chain /\ tells safe show p (f_name f) e known chain
  | Some (Bare e) =>
      ((exists o', buffer_unpack C b o = (Err e, o')) /\ (no_exception e \/ unpack_size_raises C b o e))
      \/ ((exists o', buffer_unpack C b o = (Err InstructBufferError, o'))
          /\ exists i f e' known chain, unpack_stops_at C b o i f e' known chain /\ unshown show known e)
  end.
Proof.
  intros Hok Kb. unfold unpack_raises, buffer_unpack. destruct (input_buffer_spec b Kb) as (v & V1 & _). rewrite V1.
  pose proof (unpacking_raises_spec (numbered C) (mkW new_ctx (mkBst o (Some v)) (new_baa [])) Hok (incl_refl _) (wok_new C _) (conj eq_refl eq_refl)) as S.
  destruct (unpacking_raises safe show C (numbered C) (mkW new_ctx (mkBst o (Some v)) (new_baa []))) as [[p|e]|];
    destruct (sforeach (numbered C) (fun p => unpack_field C (fst p) (snd p)) (mkW new_ctx (mkBst o (Some v)) (new_baa []))) as [[[]|e'] w'] eqn:E; try contradiction.
  - destruct S as (before & i & f & after & m & s & e & known & chain & A & B & D & F & F5 & F6).
    rewrite wrapped_exception in F by exact F5. subst e'. split; [eauto|]. exists i, f, e, known, chain.
    split; [|exact F6]. exists v, before, after, m, s. auto.
  - left. destruct S as (w2 & S). rewrite S. split; [eauto|]. right. destruct (unpack_fields_ok C _ _ _ (wok_new C _) E) as (W & U).
    exists v, (c_cache (w_ctx w')), (w_st w'). split; [exact V1|]. split; [exact U|]. eapply dref_err; eauto. left. reflexivity.
  - destruct S as (before & i & f & after & m & s & e0 & known & chain & A & B & D & F & [(F5 & F6)|(F5 & F6)]).
    + left. rewrite wrapped_no_exception in F by exact F5. subst. split; [eauto|]. auto.
    + right. rewrite wrapped_exception in F by exact F5. subst. split; [eauto|]. exists i, f, e0, known, chain.
      split; [|exact F6]. exists v, before, after, m, s. auto.
  - destruct S as (x & w2 & S). rewrite S. destruct (unpack_fields_ok C _ _ _ (wok_new C _) E) as (W & U).
    destruct (dref_cases C _ _ _ _ S W) as (_ & _ & _ & _ & K). cbn [kind_ok r_kind] in K. destruct K as (k & -> & _).
    rewrite num_bits_rnum. eauto.
Qed.
End Raises.

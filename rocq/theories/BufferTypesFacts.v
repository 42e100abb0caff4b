(** Proofs about BufferTypes.v. *)
From Verif Require Import Base Marshal BitFacts BufferTypes BufferTypesSpec.
From Coq Require Import ZArith List Bool String Ascii Lia Sorted.
Import ListNotations.
Open Scope string_scope.
Open Scope list_scope.

(** ** The order of names *)
Lemma ascii_lt a b : Ascii.compare a b = Lt <-> (N_of_ascii a < N_of_ascii b)%N.
Proof. unfold Ascii.compare. apply N.compare_lt_iff. Qed.
Lemma ascii_eq a b : Ascii.compare a b = Eq -> a = b.
Proof. apply Ascii.compare_eq_iff. Qed.
Lemma ltb_lt a b : String.ltb a b = true <-> String.compare a b = Lt.
Proof. unfold String.ltb. destruct (String.compare a b); split; congruence. Qed.
Lemma compare_trans : forall a b c, String.compare a b = Lt -> String.compare b c = Lt -> String.compare a c = Lt.
Proof.
  induction a as [|x a IH]; intros [|y b] [|z c]; cbn [String.compare]; try congruence.
  destruct (Ascii.compare x y) eqn:XY; try congruence.
  - apply ascii_eq in XY. subst y. destruct (Ascii.compare x z); try congruence. apply IH.
  - intros _. destruct (Ascii.compare y z) eqn:YZ; try congruence.
    + apply ascii_eq in YZ. subst z. rewrite XY. reflexivity.
    + intros _. apply ascii_lt in XY, YZ. assert (L : Ascii.compare x z = Lt) by (apply ascii_lt; exact (N.lt_trans _ _ _ XY YZ)). rewrite L. reflexivity.
Qed.
Lemma ltb_trans a b c : String.ltb a b = true -> String.ltb b c = true -> String.ltb a c = true.
Proof. rewrite !ltb_lt. apply compare_trans. Qed.
Lemma ltb_irrefl a : String.ltb a a = false.
Proof. unfold String.ltb. destruct (String.compare a a) eqn:E; try reflexivity. pose proof (String.compare_antisym a a) as H. rewrite E in H. discriminate. Qed.
Lemma ltb_total a b : a <> b -> String.ltb a b = false -> String.ltb b a = true.
Proof.
  intros N H. unfold String.ltb in *. rewrite String.compare_antisym. destruct (String.compare a b) eqn:E; [|discriminate|reflexivity].
  apply String.compare_eq_iff in E. congruence.
Qed.
Definition before (a b : name) : Prop := String.ltb a b = true.

Lemma insert_in n m l : In m (insert_name n l) <-> m = n \/ In m l.
Proof.
  induction l as [|k l IH]; cbn [insert_name In]; [intuition|]. destruct (String.eqb n k) eqn:E; [apply String.eqb_eq in E; subst; cbn [In]; intuition|].
  destruct (String.ltb n k); cbn [In]; [intuition|]. rewrite IH. intuition.
Qed.
Lemma insert_sorted n l : StronglySorted before l -> StronglySorted before (insert_name n l).
Proof.
  induction l as [|k l IH]; cbn [insert_name]; intros S; [repeat constructor|]. inversion S as [|? ? S1 S2]; subst.
  destruct (String.eqb n k) eqn:E; [exact S|]. destruct (String.ltb n k) eqn:L.
  - constructor; [exact S|]. constructor; [exact L|]. eapply Forall_impl; [|exact S2]. intros m M. exact (ltb_trans _ _ _ L M).
  - constructor; [apply IH; exact S1|]. apply Forall_forall. intros m M. apply insert_in in M. destruct M as [->|M].
    + apply ltb_total; [intros ->; rewrite String.eqb_refl in E; discriminate|exact L].
    + rewrite Forall_forall in S2. apply S2, M.
Qed.
Lemma dir_sorted mro : StronglySorted before (dir mro).
Proof. unfold dir. induction (flat_map (fun c => map fst (y_dict c)) mro); cbn [fold_right]; [constructor|apply insert_sorted; exact IHl]. Qed.
Lemma dir_in mro n : In n (dir mro) <-> exists c, In c mro /\ In n (map fst (y_dict c)).
Proof.
  unfold dir. rewrite <- in_flat_map. induction (flat_map (fun c => map fst (y_dict c)) mro) as [|m l IH]; cbn [fold_right]; [reflexivity|].
  rewrite insert_in, IH. cbn [In]. intuition.
Qed.

(** ** Attributes *)
Lemma lookup_keys {A} (l : list (name * A)) n : Marshal.lookup l n = None <-> ~ In n (map fst l).
Proof.
  induction l as [|[k v] l IH]; cbn [Marshal.lookup map fst In]; [intuition|]. destruct (String.eqb k n) eqn:E.
  - apply String.eqb_eq in E. split; [discriminate|]. intros H. exfalso. auto.
  - rewrite IH. split; [intros H [->|I]; [rewrite String.eqb_refl in E; discriminate|contradiction]|intuition].
Qed.
Lemma class_attr_spec mro n a : class_attr mro n = Some a <-> is_attr mro n a.
Proof.
  unfold class_attr, is_attr. induction mro as [|c mro IH]; cbn [first_some].
  - split; [discriminate|]. intros (b & c & e & H & _). destruct b; discriminate.
  - destruct (Marshal.lookup (y_dict c) n) as [x|] eqn:L.
    + split.
      * intros H. injection H as <-. exists [], c, mro. auto.
      * intros (b & d & e & H & K & F). destruct b as [|b0 b]; cbn [app] in H; injection H; clear H; intros; subst; [congruence|].
        inversion F as [|? ? F1 F2]; subst. apply lookup_keys in F1. congruence.
    + rewrite IH. split.
      * intros (b & d & e & -> & K & F). exists (c :: b), d, e. split; [reflexivity|]. split; [exact K|]. constructor; [apply lookup_keys; exact L|exact F].
      * intros (b & d & e & H & K & F). destruct b as [|b0 b]; cbn [app] in H; injection H; clear H; intros; subst; [congruence|].
        inversion F; subst. eauto 10.
Qed.
Lemma class_attr_none mro n : class_attr mro n = None <-> forall c, In c mro -> ~ In n (map fst (y_dict c)).
Proof.
  unfold class_attr. induction mro as [|c mro IH]; cbn [first_some In]; [intuition|]. destruct (Marshal.lookup (y_dict c) n) eqn:L.
  - split; [discriminate|]. intros H. exfalso. specialize (H c (or_introl eq_refl)). apply lookup_keys in H. congruence.
  - apply lookup_keys in L. rewrite IH. split; [intros H d [<-|D]; auto|auto].
Qed.
Lemma is_attr_dir mro n a : is_attr mro n a -> In n (dir mro).
Proof.
  intros (b & c & e & -> & K & _). apply dir_in. exists c. split; [apply in_or_app; right; left; reflexivity|].
  destruct (in_dec string_dec n (map fst (y_dict c))) as [I|I]; [exact I|]. apply lookup_keys in I. congruence.
Qed.

(** ** Claiming fields *)
Lemma name_of_in l f : (exists n, name_of l f = Some n) <-> In f (map fst l).
Proof.
  induction l as [|[g n] l IH]; cbn [name_of map fst In]; [split; [intros [n H]; discriminate|intros []]|]. destruct (Nat.eqb g f) eqn:E.
  - apply Nat.eqb_eq in E. split; eauto.
  - rewrite IH. apply Nat.eqb_neq in E. intuition.
Qed.
Lemma name_of_none l f : name_of l f = None <-> ~ In f (map fst l).
Proof. rewrite <- name_of_in. destruct (name_of l f); split; [discriminate|intros H; exfalso; eauto|intros _ [n H]; discriminate|reflexivity]. Qed.

Lemma claim_keeps look : forall names named f n, name_of named f = Some n -> name_of (snd (claim look names named)) f = Some n.
Proof.
  induction names as [|m names IH]; intros named f n H; cbn [claim]; [exact H|]. destruct (look m) as [[g|v]|]; try (apply IH; exact H).
  destruct (name_of named g) eqn:G; [apply IH; exact H|]. cbn [snd]. apply IH. cbn [name_of]. destruct (Nat.eqb g f) eqn:E; [|exact H].
  apply Nat.eqb_eq in E. congruence.
Qed.
Lemma claim_in look : forall names named f,
  In f (fst (claim look names named)) <-> ~ In f (map fst named) /\ exists n, In n names /\ look n = Some (CField f).
Proof.
  induction names as [|m names IH]; intros named f; cbn [claim fst].
  - split; [intros []|]. intros (_ & n & [] & _).
  - assert (Skip : (forall g, look m = Some (CField g) -> In g (map fst named)) ->
      (~ In f (map fst named) /\ (exists n, In n names /\ look n = Some (CField f))) <-> (~ In f (map fst named) /\ exists n, In n (m :: names) /\ look n = Some (CField f))).
    { intros S. split; intros (A & n & B & C); (split; [exact A|]); [exists n; split; [right; exact B|exact C]|]. destruct B as [->|B]; [exfalso; apply A, S, C|eauto]. }
    destruct (look m) as [[g|v]|] eqn:L.
    + destruct (name_of named g) as [x|] eqn:G.
      * rewrite IH. apply Skip. intros g' E. injection E as <-. apply name_of_in. eauto.
      * apply name_of_none in G. cbn [fst In]. rewrite IH. cbn [map fst In]. split.
        -- intros [<-|(A & n & B & C)]; [split; [exact G|exists m; split; [left; reflexivity|exact L]]|]. split; [tauto|]. exists n. split; [right; exact B|exact C].
        -- intros (A & n & B & C). destruct (Nat.eq_dec g f) as [E|E]; [left; exact E|]. right. split; [tauto|]. destruct B as [->|B]; [congruence|eauto].
    + rewrite IH. apply Skip. discriminate.
    + rewrite IH. apply Skip. discriminate.
Qed.
Lemma claim_nodup look : forall names named, NoDup (fst (claim look names named)).
Proof.
  induction names as [|m names IH]; intros named; cbn [claim fst]; [constructor|]. destruct (look m) as [[g|v]|]; auto.
  destruct (name_of named g); auto. cbn [fst]. constructor; [|apply IH]. intros H. apply claim_in in H. destruct H as [H _]. apply H. left. reflexivity.
Qed.
Lemma claim_named look : forall names named f, In f (map fst (snd (claim look names named))) <-> In f (map fst named) \/ In f (fst (claim look names named)).
Proof.
  induction names as [|m names IH]; intros named f; cbn [claim fst snd]; [cbn [In]; tauto|]. destruct (look m) as [[g|v]|]; auto.
  destruct (name_of named g); auto. cbn [fst snd In]. rewrite IH. cbn [map fst In]. intuition.
Qed.
(** The name is the first of the names. *)
Lemma claim_first look : forall names named f, StronglySorted before names -> In f (fst (claim look names named)) ->
  exists n, name_of (snd (claim look names named)) f = Some n /\ In n names /\ look n = Some (CField f) /\ forall m, In m names -> look m = Some (CField f) -> m = n \/ before n m.
Proof.
  induction names as [|m names IH]; intros named f S; cbn [claim fst snd]; [intros []|]. inversion S as [|? ? S1 S2]; subst.
  assert (Skip : look m <> Some (CField f) -> (exists n, name_of (snd (claim look names named)) f = Some n /\ In n names /\ look n = Some (CField f) /\ forall k, In k names -> look k = Some (CField f) -> k = n \/ before n k) ->
    exists n, name_of (snd (claim look names named)) f = Some n /\ In n (m :: names) /\ look n = Some (CField f) /\ forall k, In k (m :: names) -> look k = Some (CField f) -> k = n \/ before n k).
  { intros N (n & A & B & C & D). exists n. split; [exact A|]. split; [right; exact B|]. split; [exact C|]. intros k [<-|K] E; [contradiction|auto]. }
  destruct (look m) as [[g|v]|] eqn:L.
  - destruct (name_of named g) as [x|] eqn:G.
    + intros H. apply Skip; [|apply IH; assumption]. intros E. injection E as ->. apply claim_in in H. destruct H as [H _]. apply H, name_of_in. eauto.
    + cbn [fst snd]. intros [<-|H].
      * exists m. split; [apply claim_keeps; cbn [name_of]; rewrite Nat.eqb_refl; reflexivity|]. split; [left; reflexivity|]. split; [exact L|].
        intros k [<-|K] _; [left; reflexivity|right]. rewrite Forall_forall in S2. apply S2, K.
      * destruct (IH _ f S1 H) as (n & A & B & C & D). exists n. split; [exact A|]. split; [right; exact B|]. split; [exact C|].
        intros k [<-|K] E; [|auto]. exfalso. apply claim_in in H. destruct H as [H _]. apply H. left. cbn [fst]. rewrite L in E. injection E as E. exact E.
  - intros H. apply Skip; [discriminate|apply IH; assumption].
  - intros H. apply Skip; [discriminate|apply IH; assumption].
Qed.
(** The fields come in the order of their names. *)
Lemma claim_sorted look : forall names named, StronglySorted before names ->
  StronglySorted (fun f g => exists n m, name_of (snd (claim look names named)) f = Some n /\ name_of (snd (claim look names named)) g = Some m /\ before n m) (fst (claim look names named)).
Proof.
  induction names as [|m names IH]; intros named S; cbn [claim fst snd]; [constructor|]. inversion S as [|? ? S1 S2]; subst.
  destruct (look m) as [[g|v]|]; auto. destruct (name_of named g); auto. cbn [fst snd]. constructor; [apply IH; exact S1|].
  apply Forall_forall. intros f F. destruct (claim_first look names _ f S1 F) as (n & A & B & _). exists m, n.
  split; [apply claim_keeps; cbn [name_of]; rewrite Nat.eqb_refl; reflexivity|]. split; [exact A|]. rewrite Forall_forall in S2. apply S2, B.
Qed.

(** ** Class statements *)
Section Calc.
Variable calc : world -> list fid -> res (option Z).

Definition quiet (t : statement) : bool := negb (t_buffer t) || String.eqb (t_name t) "Buffer".
Definition new_mro (w : world) (t : statement) : list pyclass := mkPyClass (t_name t) (t_body t) (t_mro t) None None :: classes_at w (t_mro t).
Definition new_fields (w : world) (t : statement) : list fid * list (fid * name) := claim (class_attr (new_mro w t)) (dir (new_mro w t)) (w_names w).

Lemma define_cases t w :
  (quiet t = true /\ define calc t w = (Ok (List.length (w_classes w)), mkWorld (w_names w) (w_classes w ++ [mkPyClass (t_name t) (t_body t) (t_mro t) None None])))
  \/ (quiet t = false /\ exists s, define calc t w = (Ok (List.length (w_classes w)), mkWorld (snd (new_fields w t)) (w_classes w ++ [mkPyClass (t_name t) (t_body t) (t_mro t) (Some (fst (new_fields w t))) (Some s)]))
       /\ match t_size t with Some x => s = x | None => calc (mkWorld (snd (new_fields w t)) (w_classes w)) (fst (new_fields w t)) = Ok s end)
  \/ (quiet t = false /\ exists e, define calc t w = (Err e, mkWorld (snd (new_fields w t)) (w_classes w))).
Proof.
  unfold define, quiet. destruct (negb (t_buffer t) || String.eqb (t_name t) "Buffer"); [left; auto|]. right. cbv zeta. fold (new_mro w t). fold (new_fields w t).
  destruct (t_size t) as [s|]; [left; split; eauto|]. destruct (calc _ _) as [s|e]; [left; split; eauto|right; split; eauto].
Qed.

(** Whatever a class statement does, names and classes stay. *)
Lemma define_keeps t w : let w' := snd (define calc t w) in
  (forall f n, called w f n -> called w' f n) /\ (forall i c, class_no w i c -> class_no w' i c).
Proof.
  assert (A : forall (l : list pyclass) x i c, nth_error l i = Some c -> nth_error (l ++ [x]) i = Some c).
  { intros l x i c H. rewrite nth_error_app1; [exact H|]. apply nth_error_Some. congruence. }
  unfold called, class_no. destruct (define_cases t w) as [(_ & E)|[(_ & s & E & _)|(_ & e & E)]]; rewrite E; cbn [snd w_names w_classes]; split; auto; intros f n H; apply claim_keeps; exact H.
Qed.

(** What holds in all histories. *)
Record inv (w : world) : Prop := mkInv {
  i_own : forall i c fs, class_no w i c -> y_fields c = Some fs -> NoDup fs /\ forall f, In f fs -> taken w f
            /\ exists n d, called w f n /\ In d (mro_of w c) /\ In n (map fst (y_dict d));
  i_one : forall i j f, owns w i f -> owns w j f -> i = j;
  i_mro : forall i c, class_no w i c -> NoDup (y_bases c) /\ forall j, In j (y_bases c) -> (j < i)%nat /\ exists d, class_no w j d /\ incl (y_bases d) (y_bases c) }.

Lemma classes_at_in w l d : In d (classes_at w l) <-> exists j, In j l /\ class_no w j d.
Proof.
  unfold classes_at, class_no. rewrite in_flat_map. split; intros (j & J & H); exists j; (split; [exact J|]).
  - destruct (nth_error (w_classes w) j); [|destruct H]. destruct H as [->|[]]. reflexivity.
  - rewrite H. left. reflexivity.
Qed.
Lemma mro_in w c d : In d (mro_of w c) <-> d = c \/ exists j, In j (y_bases c) /\ class_no w j d.
Proof. clear calc. unfold mro_of. cbn [In]. rewrite classes_at_in. intuition. Qed.

Lemma define_inv t w : inv w -> proper w t -> inv (snd (define calc t w)).
Proof.
  intros I [Hn Hp]. destruct (define_keeps t w) as [KN KC]. set (w' := snd (define calc t w)) in *.
  assert (KM : forall c d, In d (mro_of w c) -> In d (mro_of w' c)).
  { intros c d H. apply mro_in in H. apply mro_in. destruct H as [->|(j & J & H)]; [left; reflexivity|right; eauto]. }
  assert (KT : forall f, taken w f -> taken w' f).
  { intros f H. unfold taken in *. apply name_of_in in H. destruct H as [n H]. apply name_of_in. exists n. apply KN. exact H. }
  assert (Shape : exists names extra, w' = mkWorld names (w_classes w ++ extra)
     /\ (extra = [] \/ exists c, extra = [c] /\ y_bases c = t_mro t
          /\ (y_fields c = None \/ (y_fields c = Some (fst (new_fields w t)) /\ names = snd (new_fields w t) /\ y_dict c = t_body t)))).
  { unfold w'. destruct (define_cases t w) as [(_ & E)|[(_ & s & E & _)|(_ & e & E)]]; rewrite E; cbn [snd].
    - eexists _, _. split; [reflexivity|]. right. eexists. split; [reflexivity|]. cbn. auto.
    - eexists _, _. split; [reflexivity|]. right. eexists. split; [reflexivity|]. cbn. auto.
    - exists (snd (new_fields w t)), []. rewrite app_nil_r. auto. }
  destruct Shape as (names & extra & EW & SH).
  assert (Cases : forall i c, class_no w' i c -> class_no w i c \/ (i = List.length (w_classes w) /\ extra = [c])).
  { intros i c H. unfold class_no in *. rewrite EW in H. cbn [w_classes] in H. destruct (Nat.lt_ge_cases i (List.length (w_classes w))) as [L|L].
    - rewrite nth_error_app1 in H by exact L. left. exact H.
    - rewrite nth_error_app2 in H by exact L. destruct SH as [->|(x & -> & _)]; [destruct (i - _)%nat; discriminate|].
      right. destruct (i - List.length (w_classes w))%nat as [|k] eqn:D; [|destruct k; discriminate]. injection H as ->. split; [lia|reflexivity]. }
  assert (New : forall c, extra = [c] -> y_bases c = t_mro t /\ forall fs, y_fields c = Some fs -> fs = fst (new_fields w t) /\ names = snd (new_fields w t) /\ y_dict c = t_body t).
  { intros c ->. destruct SH as [H|(x & H & B & F)]; [discriminate|]. injection H as <-. split; [exact B|]. intros fs E.
    destruct F as [F|(F & N & D)]; [congruence|]. split; [congruence|auto]. }
  assert (NF : forall f, In f (fst (new_fields w t)) -> ~ taken w f).
  { intros f H. unfold new_fields in H. apply claim_in in H. apply H. }
  constructor.
  - intros i c fs H E. destruct (Cases i c H) as [H0|(-> & X)].
    + destruct (i_own w I i c fs H0 E) as [N F]. split; [exact N|]. intros f Hf. destruct (F f Hf) as (T & n & d & A & B & D). split; [auto|]. exists n, d. auto.
    + destruct (New c X) as [Bc Fc]. destruct (Fc fs E) as (-> & EN & ED). split; [apply claim_nodup|]. intros f Hf.
      destruct (claim_first _ _ (w_names w) f (dir_sorted (new_mro w t)) Hf) as (n & A & B & L & _).
      assert (CN : called w' f n) by (unfold called; rewrite EW; cbn [w_names]; rewrite EN; exact A).
      split; [unfold taken; apply name_of_in; exists n; exact CN|]. apply dir_in in B. destruct B as (d & Dd & B). cbn [new_mro In] in Dd.
      destruct Dd as [<-|Dd].
      * exists n, c. split; [exact CN|]. split; [apply mro_in; left; reflexivity|]. rewrite ED. exact B.
      * exists n, d. split; [exact CN|]. split; [|exact B]. apply mro_in. right. apply classes_at_in in Dd. destruct Dd as (j & J & Dd). exists j. rewrite Bc. auto.
  - intros i j f (c & fs & Hc & Fc & If) (d & gs & Hd & Fd & Ig).
    destruct (Cases i c Hc) as [Hc0|(-> & Xc)], (Cases j d Hd) as [Hd0|(-> & Xd)].
    + apply (i_one w I i j f); eexists _, _; eauto.
    + exfalso. destruct (New d Xd) as [_ Q]. destruct (Q gs Fd) as (-> & _). apply (NF f Ig). destruct (i_own w I i c fs Hc0 Fc) as [_ T]. apply T, If.
    + exfalso. destruct (New c Xc) as [_ Q]. destruct (Q fs Fc) as (-> & _). apply (NF f If). destruct (i_own w I j d gs Hd0 Fd) as [_ T]. apply T, Ig.
    + reflexivity.
  - intros i c H. destruct (Cases i c H) as [H0|(-> & X)].
    + destruct (i_mro w I i c H0) as [N M]. split; [exact N|]. intros j J. destruct (M j J) as (L & d & D & Z). split; [exact L|]. exists d. auto.
    + destruct (New c X) as [-> _]. split; [exact Hn|]. intros j J. destruct (Hp j J) as (d & D & Z). split; [|exists d; split; [apply KC; exact D|exact Z]].
      apply nth_error_Some. congruence.
Qed.
Lemma history_inv w : history calc w -> inv w.
Proof.
  induction 1 as [|w t H IH P]; [|apply define_inv; assumption].
  constructor; unfold class_no, owns; cbn [w_classes].
  - intros i c fs H. destruct i; discriminate.
  - intros i j f (c & fs & H & _). unfold class_no in H. destruct i; discriminate.
  - intros i c H. destruct i; discriminate.
Qed.

(** ** The fields of a new class *)
Lemma define_fields t w i w' : define calc t w = (Ok i, w') -> quiet t = false ->
  let mro := new_mro w t in
  exists fs s, class_no w' i (mkPyClass (t_name t) (t_body t) (t_mro t) (Some fs) (Some s))
    /\ NoDup fs /\ (forall f, In f fs <-> ~ taken w f /\ exists n, is_attr mro n (CField f))
    /\ (forall f, In f fs -> exists n, called w' f n /\ is_attr mro n (CField f) /\ forall m, is_attr mro m (CField f) -> m = n \/ String.ltb n m = true)
    /\ StronglySorted (fun f g => exists n m, called w' f n /\ called w' g m /\ String.ltb n m = true) fs
    /\ match t_size t with Some x => s = x | None => exists v, calc v fs = Ok s end.
Proof.
  intros D Q mro. destruct (define_cases t w) as [(X & _)|[(_ & s & E & Sz)|(_ & e & E)]]; [congruence| |congruence].
  rewrite E in D. injection D as <- <-. exists (fst (new_fields w t)), s. unfold class_no, called. cbn [w_classes w_names].
  split; [rewrite nth_error_app2, Nat.sub_diag by apply Nat.le_refl; reflexivity|].
  split; [apply claim_nodup|]. split; [|split; [|split]].
  - intros f. unfold new_fields. rewrite claim_in. fold mro. unfold taken. split; intros (A & n & B); (split; [exact A|]).
    + exists n. apply class_attr_spec. apply B.
    + exists n. split; [exact (is_attr_dir _ _ _ B)|apply class_attr_spec; exact B].
  - intros f F. destruct (claim_first _ _ (w_names w) f (dir_sorted (new_mro w t)) F) as (n & A & B & C & M). exists n. split; [exact A|].
    split; [apply class_attr_spec; exact C|]. intros m Hm. apply M; [exact (is_attr_dir _ _ _ Hm)|apply class_attr_spec; exact Hm].
  - exact (claim_sorted _ _ (w_names w) (dir_sorted (new_mro w t))).
  - destruct (t_size t); [exact Sz|]. eauto.
Qed.

(** ** Owners *)
Lemma first_some_in {A B} (g : A -> option B) l b : first_some g l = Some b -> exists a, In a l /\ g a = Some b.
Proof.
  induction l as [|a l IH]; cbn [first_some]; [discriminate|]. destruct (g a) eqn:E.
  - intros H. injection H as <-. exists a. split; [left; reflexivity|exact E].
  - intros H. destruct (IH H) as (x & I & X). exists x. split; [right; exact I|exact X].
Qed.
Lemma all_fields_owner w i c f : inv w -> class_no w i c -> In f (all_fields w c) -> exists j, owns w j f /\ (j = i \/ In j (y_bases c)).
Proof.
  intros I Hc H. unfold all_fields in H. apply in_flat_map in H. destruct H as (d & Hd & H). unfold fields_attr in H.
  destruct (first_some y_fields (mro_of w d)) as [fs|] eqn:F; [|destruct H]. apply first_some_in in F. destruct F as (e & He & F).
  apply mro_in in Hd. apply mro_in in He. destruct (i_mro w I i c Hc) as [_ M].
  assert (G : exists j, class_no w j e /\ (j = i \/ In j (y_bases c))).
  { destruct Hd as [->|(k & K & Hd)].
    - destruct He as [->|(m & J & He)]; [exists i; auto|exists m; auto].
    - destruct (M k K) as (_ & d' & D' & Z). assert (d' = d) by (unfold class_no in *; congruence). subst d'.
      destruct He as [->|(m & J & He)]; [exists k; auto|exists m; auto]. }
  destruct G as (j & J & G). exists j. split; [exists e, fs; auto|exact G].
Qed.

(** ** Constructing *)
Variable default : fid -> value.
Lemma set_kwargs_spec names : forall kw o,
  (Forall (fun p => In (fst p) names) kw /\ exists o', set_kwargs names kw o = Ok o'
     /\ forall n, Marshal.lookup o' n = match Marshal.lookup (rev kw) n with Some v => Some v | None => Marshal.lookup o n end)
  \/ (Exists (fun p => ~ In (fst p) names) kw /\ set_kwargs names kw o = Err AssertionError).
Proof.
  assert (A : forall l (p : name * value) n, Marshal.lookup (l ++ [p]) n = match Marshal.lookup l n with Some v => Some v | None => if String.eqb (fst p) n then Some (snd p) else None end).
  { induction l as [|[k v] l IH]; intros [m x] n; cbn [app Marshal.lookup fst snd]; [reflexivity|]. destruct (String.eqb k n); [reflexivity|apply IH]. }
  induction kw as [|[n v] kw IH]; intros o; cbn [set_kwargs].
  - left. split; [constructor|]. exists o. auto.
  - destruct (existsb (String.eqb n) names) eqn:E; cbn [passert rbind].
    + assert (In n names) as I. { apply existsb_exists in E. destruct E as (m & J & E). apply String.eqb_eq in E. subst m. exact J. }
      destruct (IH (set_attr o n v)) as [(F & o' & S & L)|(F & S)].
      * left. split; [constructor; assumption|]. exists o'. split; [exact S|]. intros k. rewrite L. cbn [rev]. rewrite A. cbn [fst snd].
        destruct (Marshal.lookup (rev kw) k); [reflexivity|]. destruct (String.eqb n k) eqn:Q.
        -- apply String.eqb_eq in Q. subst k. apply lookup_set_same.
        -- apply lookup_set_other. intros ->. rewrite String.eqb_refl in Q. discriminate.
      * right. split; [right; exact F|exact S].
    + right. split; [|reflexivity]. left. cbn [fst]. intros I. assert (existsb (String.eqb n) names = true); [|congruence].
      apply existsb_exists. exists n. split; [exact I|apply String.eqb_refl].
Qed.
Lemma set_defaults_spec w c : forall l o, (forall f, In f l -> class_attr (mro_of w c) (field_name w f) <> None) ->
  exists o', set_defaults default w c l o = Ok o' /\ forall n,
    (forall v, Marshal.lookup o n = Some v -> Marshal.lookup o' n = Some v)
    /\ (Marshal.lookup o n = None -> (forall g, class_attr (mro_of w c) n <> Some (CField g)) -> Marshal.lookup o' n = None)
    /\ (Marshal.lookup o n = None -> forall g, class_attr (mro_of w c) n = Some (CField g) ->
         (Forall (fun f => field_name w f <> n) l -> Marshal.lookup o' n = None)
         /\ forall l1 f l2, l = l1 ++ f :: l2 -> field_name w f = n -> Forall (fun f => field_name w f <> n) l1 -> Marshal.lookup o' n = Some (default f)).
Proof.
  induction l as [|f l IH]; intros o H; cbn [set_defaults].
  - exists o. split; [reflexivity|]. intros n. split; [auto|]. split; [auto|]. intros N g G. split; [auto|]. intros [|? l1] f1 l2 E1; discriminate.
  - unfold obj_attr. assert (H' : forall g, In g l -> class_attr (mro_of w c) (field_name w g) <> None) by (intros; apply H; right; assumption).
    destruct (Marshal.lookup o (field_name w f)) as [v|] eqn:L.
    + destruct (IH o H') as (o' & S & P). exists o'. split; [exact S|]. intros n. destruct (P n) as (P1 & P2 & P3). split; [exact P1|]. split; [exact P2|].
      intros N g G. destruct (P3 N g G) as [Q1 Q2]. assert (NE : field_name w f <> n) by (intros E; rewrite E in L; congruence). split.
      * intros F. inversion F; subst. auto.
      * intros [|x l1] f' l2 E Ef F; cbn [app] in E; injection E; clear E; intros; subst; [contradiction|]. inversion F; subst. eapply Q2; eauto.
    + destruct (class_attr (mro_of w c) (field_name w f)) as [[g|v]|] eqn:CA.
      * destruct (IH (set_attr o (field_name w f) (default f)) H') as (o' & S & P). exists o'. split; [exact S|]. intros n.
        destruct (P n) as (P1 & P2 & P3). destruct (String.eqb (field_name w f) n) eqn:E.
        -- apply String.eqb_eq in E. subst n. rewrite lookup_set_same in P1. split; [congruence|]. split; [intros _ Q; destruct (Q g CA)|].
           intros _ g' _. split; [intros F; inversion F; subst; contradiction|]. intros [|x l1] f' l2 X Ef F; cbn [app] in X; injection X; clear X; intros; subst.
           ++ apply P1. reflexivity.
           ++ inversion F; subst. contradiction.
        -- assert (NE : field_name w f <> n) by (intros X; rewrite X, String.eqb_refl in E; discriminate).
           rewrite lookup_set_other in P1, P2, P3 by exact NE. split; [exact P1|]. split; [exact P2|].
           intros N g' G. destruct (P3 N g' G) as [Q1 Q2]. split; [intros F; inversion F; subst; auto|].
           intros [|x l1] f' l2 X Ef F; cbn [app] in X; injection X; clear X; intros; subst; [contradiction|]. inversion F; subst. eapply Q2; eauto.
      * destruct (IH o H') as (o' & S & P). exists o'. split; [exact S|]. intros n. destruct (P n) as (P1 & P2 & P3). split; [exact P1|]. split; [exact P2|].
        intros N g G. destruct (P3 N g G) as [Q1 Q2]. assert (NE : field_name w f <> n) by (intros E; rewrite E in CA; congruence). split.
        -- intros F. inversion F; subst. auto.
        -- intros [|x l1] f' l2 E Ef F; cbn [app] in E; injection E; clear E; intros; subst; [contradiction|]. inversion F; subst. eapply Q2; eauto.
      * exfalso. apply (H f (or_introl eq_refl)). exact CA.
Qed.
Lemma field_visible w i c f : inv w -> class_no w i c -> In f (all_fields w c) -> exists n, called w f n /\ class_attr (mro_of w c) n <> None.
Proof.
  intros I Hc H. destruct (all_fields_owner w i c f I Hc H) as (j & (d & fs & Hd & F & If) & J).
  destruct (i_own w I j d fs Hd F) as [_ P]. destruct (P f If) as (_ & n & e & A & B & D). exists n. split; [exact A|].
  intros N. rewrite class_attr_none in N. apply (N e); [|exact D]. destruct (i_mro w I i c Hc) as [_ M]. apply mro_in in B. apply mro_in.
  destruct J as [->|J].
  - assert (d = c) by (unfold class_no in *; congruence). subst d. exact B.
  - right. destruct (M j J) as (_ & d' & D' & Z). assert (d' = d) by (unfold class_no in *; congruence). subst d'. destruct B as [->|(k & K & B)]; eauto.
Qed.
Lemma called_name w f n : called w f n -> field_name w f = n.
Proof. unfold called, field_name. intros ->. reflexivity. Qed.

Lemma construct_spec w i c kw : inv w -> class_no w i c ->
  let names n := exists f, In f (all_fields w c) /\ called w f n in
  (Forall (fun p => names (fst p)) kw /\ exists o, construct default w c kw = Ok o /\ forall n, names n -> exists v,
      obj_attr w c o n = Some (COther v)
      /\ match Marshal.lookup (rev kw) n with
         | Some x => v = x
         | None => is_attr (mro_of w c) n (COther v) \/ exists g f, is_attr (mro_of w c) n (CField g) /\ first_called w (all_fields w c) n f /\ v = default f
         end)
  \/ (Exists (fun p => ~ names (fst p)) kw /\ construct default w c kw = Err AssertionError).
Proof.
  intros I Hc names. unfold construct. set (l := all_fields w c) in *.
  assert (V : forall f, In f l -> called w f (field_name w f) /\ class_attr (mro_of w c) (field_name w f) <> None).
  { intros f F. destruct (field_visible w i c f I Hc F) as (n & A & B). rewrite (called_name w f n A). auto. }
  assert (NI : forall n, In n (map (field_name w) l) <-> names n).
  { intros n. rewrite in_map_iff. unfold names. split; intros (f & A & B); exists f.
    - subst n. split; [exact B|apply V, B].
    - split; [apply called_name; exact B|exact A]. }
  destruct (set_kwargs_spec (map (field_name w) l) kw []) as [(F & o & S & L)|(F & S)].
  - left. split; [eapply Forall_impl; [|exact F]; intros p P; apply NI, P|]. rewrite S. cbn [rbind].
    destruct (set_defaults_spec w c l o) as (o' & S' & P); [intros f Hf; apply V, Hf|]. exists o'. split; [exact S'|].
    intros n (f & Hf & Cf). pose proof (called_name _ _ _ Cf) as Ef. destruct (P n) as (P1 & P2 & P3). specialize (L n). cbn [Marshal.lookup] in L.
    unfold obj_attr. destruct (Marshal.lookup (rev kw) n) as [x|] eqn:K.
    + rewrite (P1 x L). exists x. auto.
    + assert (L' : Marshal.lookup o n = None) by (rewrite L; reflexivity).
      destruct (class_attr (mro_of w c) n) as [[g|v]|] eqn:CA.
      * destruct (P3 L' g eq_refl) as [_ Q].
        assert (G : exists l1 h l2, l = l1 ++ h :: l2 /\ field_name w h = n /\ Forall (fun f => field_name w f <> n) l1).
        { clear -Hf Ef. induction l as [|x l IH]; [destruct Hf|]. destruct (string_dec (field_name w x) n) as [E|E].
          - exists [], x, l. auto.
          - destruct Hf as [->|Hf]; [contradiction|]. destruct (IH Hf) as (l1 & h & l2 & -> & A & B). exists (x :: l1), h, l2. auto. }
        destruct G as (l1 & h & l2 & El & Eh & Fl). rewrite (Q l1 h l2 El Eh Fl). exists (default h). split; [reflexivity|]. right.
        exists g, h. split; [apply class_attr_spec; exact CA|]. split; [|reflexivity]. exists l1, l2. split; [exact El|].
        split; [rewrite <- Eh; apply V; rewrite El; apply in_or_app; right; left; reflexivity|]. eapply Forall_impl; [|exact Fl].
        intros y Y C. apply Y. apply called_name. exact C.
      * rewrite (P2 L') by congruence. exists v. split; [reflexivity|]. left. apply class_attr_spec. exact CA.
      * exfalso. destruct (V f Hf) as [_ X]. rewrite Ef in X. contradiction.
  - right. split; [|rewrite S; reflexivity]. apply Exists_exists in F. destruct F as (p & Ip & F). apply Exists_exists. exists p. split; [exact Ip|]. rewrite <- NI. exact F.
Qed.
End Calc.

(** ** All fields *)
Lemma all_fields_own w c : (forall b, In b (mro_of w c) -> y_fields b = None -> Forall (fun e => y_fields e = None) (mro_of w b)) ->
  all_fields w c = flat_map own_fields (mro_of w c).
Proof.
  intros H. unfold all_fields. induction (mro_of w c) as [|b l IH]; cbn [flat_map]; [reflexivity|].
  rewrite IH by (intros; apply H; [right|]; assumption). f_equal. unfold fields_attr, own_fields. specialize (H b (or_introl eq_refl)).
  unfold mro_of in *. cbn [first_some]. destruct (y_fields b) as [fs|]; [reflexivity|]. specialize (H eq_refl). inversion H as [|? ? _ H2]; subst.
  clear -H2. induction (classes_at w (y_bases b)) as [|e l IH]; cbn [first_some]; [reflexivity|]. inversion H2 as [|? ? H3 H4]; subst. rewrite H3. apply IH, H4.
Qed.
Lemma own_nodup w : inv w -> forall l, NoDup l -> NoDup (flat_map own_fields (classes_at w l)).
Proof.
  intros I l. induction l as [|i l IH]; intros N; [constructor|]. inversion N as [|? ? N1 N2]; subst. unfold classes_at in *. cbn [flat_map].
  destruct (nth_error (w_classes w) i) as [c|] eqn:E; [|apply IH, N2]. cbn [app flat_map]. unfold own_fields at 1. destruct (y_fields c) as [fs|] eqn:F; [|apply IH, N2].
  destruct (i_own w I i c fs E F) as [Nf _]. revert Nf. assert (D : forall f, In f fs -> ~ In f (flat_map own_fields (classes_at w l))).
  { intros f Hf H. apply in_flat_map in H. destruct H as (d & Hd & H). apply classes_at_in in Hd. destruct Hd as (j & J & Hd).
    assert (i = j); [|congruence]. apply (i_one w I i j f); [exists c, fs; auto|]. unfold own_fields in H. destruct (y_fields d) as [gs|] eqn:G; [|destruct H]. exists d, gs. auto. }
  clear -D N2 IH. intros Nf. induction fs as [|f fs IHf]; [apply IH, N2|]. cbn [app]. inversion Nf as [|? ? A B]; subst. constructor.
  - intros H. apply in_app_or in H. destruct H as [H|H]; [contradiction|]. apply (D f (or_introl eq_refl)). exact H.
  - apply IHf; [|exact B]. intros g G. apply D. right. exact G.
Qed.
Lemma all_fields_nodup w i c : inv w -> class_no w i c -> NoDup (flat_map own_fields (mro_of w c)).
Proof.
  intros I H. destruct (i_mro w I i c H) as [N M]. assert (E : mro_of w c = classes_at w (i :: y_bases c)).
  { unfold mro_of, classes_at. cbn [flat_map]. unfold class_no in H. rewrite H. reflexivity. }
  rewrite E. apply own_nodup; [exact I|]. constructor; [|exact N]. intros X. destruct (M i X) as [L _]. lia.
Qed.

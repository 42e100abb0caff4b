(** C86: which fields a Buffer class has, and how objects of it are constructed. *)
From Verif Require Import Base Stream Marshal IoBuffer IoSpec RefEngine BufferModel BufferErrors StreamSpec Compat CompatProofs BufferTypes BufferTypesSpec BufferTypesFacts.
From Coq Require Import ZArith List Bool String Sorted.
Import ListNotations.
Open Scope string_scope.
Open Scope list_scope.
Open Scope Z_scope.

(** ** C86.  A class statement takes the fields it sees that no class has taken before; each gets the
    first of its names, and the fields are in the order of their names. *)
Theorem C86_own_fields : forall calc t w i w', define calc t w = (Ok i, w') -> t_buffer t = true -> t_name t <> "Buffer" ->
  let mro := mkPyClass (t_name t) (t_body t) (t_mro t) None None :: classes_at w (t_mro t) in
  exists fs s, class_no w' i (mkPyClass (t_name t) (t_body t) (t_mro t) (Some fs) (Some s))
    /\ NoDup fs /\ (forall f, In f fs <-> ~ taken w f /\ exists n, is_attr mro n (CField f))
    /\ (forall f, In f fs -> exists n, called w' f n /\ is_attr mro n (CField f) /\ forall m, is_attr mro m (CField f) -> m = n \/ String.ltb n m = true)
    /\ StronglySorted (fun f g => exists n m, called w' f n /\ called w' g m /\ String.ltb n m = true) fs
    /\ match t_size t with Some x => s = x | None => exists v, calc v fs = Ok s end.
Proof.
  intros calc t w i w' D B N. apply (define_fields calc t w i w' D). unfold quiet. rewrite B. cbn [negb orb].
  apply String.eqb_neq. exact N.
Qed.
Print Assumptions C86_own_fields.

(** In every history a field belongs to one class at most, and names and classes never change. *)
Theorem C86_one_owner : forall calc w, history calc w ->
  (forall i j f, owns w i f -> owns w j f -> i = j)
  /\ (forall t, let w' := snd (define calc t w) in
       (forall f n, called w f n -> called w' f n) /\ (forall i c, class_no w i c -> class_no w' i c)).
Proof.
  intros calc w H. split; [exact (i_one w (history_inv calc w H))|]. intros t. exact (define_keeps calc t w).
Qed.
Print Assumptions C86_one_owner.

(** An object has the fields of all classes of the mro, none twice. *)
Theorem C86_all_fields : forall calc w, history calc w -> forall i c, class_no w i c ->
  (forall b, In b (mro_of w c) -> y_fields b = None -> Forall (fun e => y_fields e = None) (mro_of w b)) ->
  all_fields w c = flat_map own_fields (mro_of w c) /\ NoDup (all_fields w c).
Proof.
  intros calc w H i c Hc Hb. rewrite (all_fields_own w c Hb). split; [reflexivity|].
  exact (all_fields_nodup w i c (history_inv calc w H) Hc).
Qed.
Print Assumptions C86_all_fields.

(** A field of a mixin that two Buffer classes use belongs to the first; objects of the second do
    not have it. *)
Theorem C86_shared_field_refuted : forall calc w, history calc w -> forall t, proper w t -> forall i w', define calc t w = (Ok i, w') ->
  forall f j, owns w j f -> ~ In j (t_mro t) -> forall c, class_no w' i c -> ~ In f (all_fields w' c).
Proof.
  intros calc w H t P i w' D f j O N c Hc X. assert (H' : history calc w') by (replace w' with (snd (define calc t w)) by (rewrite D; reflexivity); constructor; assumption).
  destruct (all_fields_owner w' i c f (history_inv calc w' H') Hc X) as (k & K & B).
  destruct (define_keeps calc t w) as [_ KC]. rewrite D in KC. cbn [snd] in KC. destruct O as (d & fs & Hd & F & If).
  assert (E : j = k). { apply (i_one w' (history_inv calc w' H') j k f); [|exact K]. exists d, fs. auto. } subst k.
  assert (L : (j < List.length (w_classes w))%nat) by (apply nth_error_Some; unfold class_no in Hd; congruence).
  assert (Ei : i = List.length (w_classes w) /\ y_bases c = t_mro t).
  { unfold class_no in Hc. destruct (define_cases calc t w) as [(_ & E)|[(_ & s & E & _)|(_ & e & E)]]; rewrite E in D; [| |discriminate];
      injection D as <- <-; cbn [w_classes] in Hc; rewrite nth_error_app2, Nat.sub_diag in Hc by apply Nat.le_refl; injection Hc as <-; auto. }
  destruct Ei as [-> Eb]. destruct B as [->|B]; [apply (Nat.lt_irrefl _ L)|]. rewrite Eb in B. contradiction.
Qed.
Print Assumptions C86_shared_field_refuted.

(** A class that adds no fields and no byte_size has the size 0, whatever its bases are; unpack() of
    an object returns 0, and the adapter for structs reads no bytes. *)
Definition calc_from (layout : world -> list fid -> cls) (w : world) (fs : list fid) : res (option Z) :=
  static_size (layout w fs) (firstn (List.length fs) (numbered (layout w fs))) new_ctx [].
Theorem C86_plain_subclass_refuted : forall layout t w, t_buffer t = true -> t_name t <> "Buffer" -> t_size t = None ->
  (forall n f, is_attr (mkPyClass (t_name t) (t_body t) (t_mro t) None None :: classes_at w (t_mro t)) n (CField f) -> taken w f) ->
  (exists i w' c, define (calc_from layout) t w = (Ok i, w') /\ class_no w' i c /\ byte_size w' c = Some 0)
  /\ forall C, k_size C = Some 0 ->
     (forall b o n o', buf_ok b -> buffer_unpack C b o = (Ok n, o') -> n = 0)
     /\ (forall s, stream_ok s -> ad_create_from_stream (buffer_to_struct_adapter C false) s = (ad_create_from_string (buffer_to_struct_adapter C false) (PyBytes []), consume 0 s)).
Proof.
  intros layout t w B N S T. split.
  - assert (Q : quiet t = false) by (unfold quiet; rewrite B; apply String.eqb_neq; exact N).
    assert (F0 : fst (new_fields w t) = []).
    { destruct (fst (new_fields w t)) as [|f fs] eqn:E; [reflexivity|]. exfalso. assert (I : In f (fst (new_fields w t))) by (rewrite E; left; reflexivity).
      unfold new_fields in I. apply claim_in in I. destruct I as (A & n & _ & L). apply A. apply (T n). apply class_attr_spec. exact L. }
    destruct (define_cases (calc_from layout) t w) as [(X & _)|[(_ & s & E & X)|(_ & e & E)]]; [congruence| |].
    + rewrite S, F0 in X. cbn in X. injection X as <-. rewrite E. eexists _, _, _. split; [reflexivity|]. unfold class_no. cbn [w_classes].
      split; [rewrite nth_error_app2, Nat.sub_diag by apply Nat.le_refl; reflexivity|]. reflexivity.
    + exfalso. unfold define in E. unfold quiet in Q. rewrite Q in E. cbv zeta in E. fold (new_mro w t) in E. fold (new_fields w t) in E. rewrite S, F0 in E. discriminate.
  - intros C K. split.
    + intros b o n o' Kb U. destruct (buffer_unpack_ok C b o n o' Kb U) as [Z _]. exact (Z 0 K).
    + intros s Hs. unfold buffer_to_struct_adapter. rewrite (read_whole C 0 s K Hs) by (unfold maxsize; split; discriminate). reflexivity.
Qed.
Print Assumptions C86_plain_subclass_refuted.

(** Constructing: keyword arguments must be fields; else the value is an attribute of the class that
    hides the field, or the default of the first class that has a field of this name. *)
Theorem C86_construct : forall calc default w, history calc w -> forall i c, class_no w i c -> forall kw,
  let names n := exists f, In f (all_fields w c) /\ called w f n in
  (Forall (fun p => names (fst p)) kw /\ exists o, construct default w c kw = Ok o /\ forall n, names n -> exists v,
      obj_attr w c o n = Some (COther v)
      /\ match Marshal.lookup (rev kw) n with
         | Some x => v = x
         | None => is_attr (mro_of w c) n (COther v) \/ exists g f, is_attr (mro_of w c) n (CField g) /\ first_called w (all_fields w c) n f /\ v = default f
         end)
  \/ (Exists (fun p => ~ names (fst p)) kw /\ construct default w c kw = Err AssertionError).
Proof. intros calc default w H i c Hc kw. exact (construct_spec default w i c kw (history_inv calc w H) Hc). Qed.
Print Assumptions C86_construct.

(** ** Cases *)
Definition no_size (w : world) (fs : list fid) : res (option Z) := Ok None.
(** class Buffer; class Mixin(object): crc = field 0; class A(Mixin, Buffer): y = field 1; x = field 2;
    class B(Mixin, Buffer): z = field 3; class C(A): x = 5; class D(A): y = field 4. *)
Definition buffer_class : statement := mkStatement "Buffer" [("pack", COther VNone)] None [] true.
Definition mixin_class : statement := mkStatement "Mixin" [("crc", CField 0%nat)] None [] false.
Definition a_class : statement := mkStatement "A" [("y", CField 1%nat); ("x", CField 2%nat); ("alias", CField 1%nat)] None [1; 0]%nat true.
Definition b_class : statement := mkStatement "B" [("z", CField 3%nat)] None [1; 0]%nat true.
Definition c_class : statement := mkStatement "C" [("x", COther (VInt 5))] None [2; 1; 0]%nat true.
Definition d_class : statement := mkStatement "D" [("x", CField 4%nat)] None [2; 1; 0]%nat true.
Definition family : world := run no_size [buffer_class; mixin_class; a_class; b_class; c_class; d_class] (mkWorld [] []).
Lemma family_history : history no_size family.
Proof.
  unfold family. cbn [run].
  assert (P : forall w t, NoDup (t_mro t) ->
    forallb (fun i => match nth_error (w_classes w) i with Some c => forallb (fun j => existsb (Nat.eqb j) (t_mro t)) (y_bases c) | None => false end) (t_mro t) = true -> proper w t).
  { intros w t N F. split; [exact N|]. intros i I. rewrite forallb_forall in F. specialize (F i I). destruct (nth_error (w_classes w) i) as [c|]; [|discriminate].
    exists c. split; [reflexivity|]. intros j J. rewrite forallb_forall in F. specialize (F j J). apply existsb_exists in F. destruct F as (k & K & E). apply Nat.eqb_eq in E. subst k. exact K. }
  assert (N1 : NoDup [1; 0]%nat) by (repeat constructor; cbn; intuition discriminate).
  assert (N2 : NoDup [2; 1; 0]%nat) by (repeat constructor; cbn; intuition discriminate).
  do 6 (apply h_define; [|apply P; [first [exact N1|exact N2|constructor]|vm_compute; reflexivity]]). constructor.
Qed.
Example C86_nonvacuous :
  map (fun c => (y_name c, own_fields c)) (w_classes family)
    = [("Buffer", []); ("Mixin", []); ("A", [1; 0; 2]%nat); ("B", [3]%nat); ("C", []); ("D", [4]%nat)]
  /\ w_names family = [(4%nat, "x"); (3%nat, "z"); (2%nat, "x"); (0%nat, "crc"); (1%nat, "alias")]
  /\ (forall c, class_no family 3 c -> all_fields family c = [3]%nat)
  /\ (forall c, class_no family 5 c -> all_fields family c = [4; 1; 0; 2]%nat).
Proof.
  split; [vm_compute; reflexivity|]. split; [vm_compute; reflexivity|]. split; intros c H; vm_compute in H; injection H as <-; vm_compute; reflexivity.
Qed.
Example C86_nonvacuous_construct : forall c d, class_no family 4 c -> class_no family 5 d ->
  construct (fun f => VInt (Z.of_nat f)) family c [("crc", VInt 9)] = Ok [("crc", VInt 9); ("alias", VInt 1)]
  /\ obj_attr family c [("crc", VInt 9); ("alias", VInt 1)] "x" = Some (COther (VInt 5))
  /\ construct (fun f => VInt (Z.of_nat f)) family d [] = Ok [("x", VInt 4); ("alias", VInt 1); ("crc", VInt 0)]
  /\ construct (fun f => VInt (Z.of_nat f)) family d [("y", VInt 0)] = Err AssertionError.
Proof.
  intros c d H K. vm_compute in H, K. injection H as <-. injection K as <-. split; [|split; [|split]]; vm_compute; reflexivity.
Qed.
(** class E(A): pass *)
Example C86_nonvacuous_plain : let t := mkStatement "E" [] None [2; 1; 0]%nat true in
  (forall n f, is_attr (mkPyClass (t_name t) (t_body t) (t_mro t) None None :: classes_at family (t_mro t)) n (CField f) -> taken family f)
  /\ owns family 2 0%nat /\ ~ In 2%nat (t_mro b_class).
Proof.
  cbv zeta. split; [|split].
  - intros n f (b & c & a & E & L & _). assert (G : forall l : list (name * cattr), Marshal.lookup l n = Some (CField f) -> In (CField f) (map snd l)).
    { induction l as [|[k x] l IH]; cbn [Marshal.lookup map snd]; [discriminate|]. destruct (String.eqb k n); [intros X; injection X as ->; left; reflexivity|]. intros X. right. apply IH, X. }
    apply G in L. assert (I : In (CField f) (flat_map (fun c => map snd (y_dict c)) (b ++ c :: a))).
    { apply in_flat_map. exists c. split; [apply in_or_app; right; left; reflexivity|exact L]. }
    rewrite <- E in I. vm_compute in I. unfold taken.
    repeat (destruct I as [I|I]; [first [discriminate I|injection I as <-; vm_compute; tauto]|]). destruct I.
  - eexists _, _. split; [vm_compute; reflexivity|]. split; [reflexivity|]. right. left. reflexivity.
  - cbn. intuition discriminate.
Qed.

(** Property C29: defaults and sharing. *)
From Verif Require Import Base Marshal Heap HeapSpec HeapFacts.
From Coq Require Import ZArith List Bool String Lia.
Import ListNotations.
Open Scope string_scope.
Open Scope list_scope.

(** C29.  A Struct class whose defaults are immutable or lists, dicts and byte arrays of immutable
    values.  Whatever a program has done with its instances - constructing, assigning, changing
    objects in place, storing parts of one instance in another - a new instance sees the declared
    default, in an object that did not exist before. *)
Theorem C29_struct_default_fresh : forall h0 fs ops n c,
  NoDup (map fst fs) -> Forall (fun f => plain_default h0 (snd f)) fs -> In (n, c) fs ->
  let s := run (new_struct fs) ops (start h0) in
  let s' := step (new_struct fs) s (ONew []) in
  exists c', attr s' (List.length (insts s)) n = Some c'
    /\ (forall depth, look depth (hp s') c' = look depth h0 c)
    /\ match c' with CVal _ => True | CRef l => (List.length (hp s) <= l)%nat end.
Proof. exact fresh_default. Qed.
Print Assumptions C29_struct_default_fresh.

(** C29.  If the program never stores parts of one instance in another, then nothing it does to
    other instances, including new ones, changes what is seen through an instance. *)
Theorem C29_struct_instances_apart : forall h0 fs ops ops2 j depth,
  Forall (fun f => plain_default h0 (snd f)) fs ->
  Forall keeps_apart ops -> Forall keeps_apart ops2 -> Forall (elsewhere j) ops2 ->
  let s := run (new_struct fs) ops (start h0) in
  (j < List.length (insts s))%nat ->
  seen depth (run (new_struct fs) ops2 s) j = seen depth s j.
Proof. exact isolated. Qed.
Print Assumptions C29_struct_instances_apart.

(** C29.  The copy is shallow: a list inside of a default list is shared by all instances that have
    the default, before and after... *)
Theorem C29_struct_nested_default_shared : forall fs n l s cs q t old vs,
  NoDup (map fst fs) -> In (n, CRef l) fs ->
  nth_error (hp s) l = Some (HList cs) -> nth_error cs q = Some (CRef t) -> nth_error (hp s) t = Some (HList old) -> t <> l ->
  let i := List.length (insts s) in
  let s' := run (new_struct fs) (three n i [q] (ChList (map SVal vs))) s in
  forall k, In k [i; S i; S (S i)] ->
  exists c, eval_path s' (mkPath k n [q]) = Some c /\ forall d, look (S d) (hp s') c = TList (map TVal vs).
Proof. exact struct_nested_shared. Qed.
Print Assumptions C29_struct_nested_default_shared.

(** ... and so is a default without a copy method, such as another Struct. *)
Theorem C29_struct_instance_default_shared : forall fs n l s old kvs,
  NoDup (map fst fs) -> In (n, CRef l) fs -> nth_error (hp s) l = Some (HInst old) ->
  let i := List.length (insts s) in
  let s' := run (new_struct fs) (three n i [] (ChInst (map (fun kv => (fst kv, SVal (snd kv))) kvs))) s in
  forall k, In k [i; S i; S (S i)] ->
  exists c, attr s' k n = Some c /\ forall d, look (S d) (hp s') c = TInst (map (fun kv => (fst kv, TVal (snd kv))) kvs).
Proof. exact struct_instance_shared. Qed.
Print Assumptions C29_struct_instance_default_shared.

(** C29.  Buffer classes share one default object between all instances: a change through one of
    them is seen through another one and through those made later. *)
Theorem C29_buffer_default_shared : forall fs n l s old vs,
  NoDup (map fst fs) -> In (n, CRef l) fs -> nth_error (hp s) l = Some (HList old) ->
  let i := List.length (insts s) in
  let s' := run (new_buffer fs) (three n i [] (ChList (map SVal vs))) s in
  forall k, In k [i; S i; S (S i)] ->
  exists c, attr s' k n = Some c /\ forall d, look (S d) (hp s') c = TList (map TVal vs).
Proof. exact buffer_shared. Qed.
Print Assumptions C29_buffer_default_shared.

(** C29.  Assigning a new object to an attribute: the attribute shows that object, and nothing else
    changes. *)
Theorem C29_assigned_seen : forall new s i n t, (i < List.length (insts s))%nat ->
  let s' := step new s (OSet i n (SNew t)) in
  exists c, attr s' i n = Some c /\ (forall d, look (S d) (hp s') c = written t)
    /\ (forall m, m <> n -> attr s' i m = attr s i m) /\ (forall j m, j <> i -> attr s' j m = attr s j m)
    /\ forall l, (l < List.length (hp s))%nat -> nth_error (hp s') l = nth_error (hp s) l.
Proof. exact assigned_seen. Qed.
Print Assumptions C29_assigned_seen.

(** Two fields with a list and a dict as defaults; the first instance is changed in place and
    stored in part in the second. *)
Definition demo_heap : heap := [HList [CVal (VInt 1); CVal (VInt 2)]; HDict [(VInt 0, CVal (VBytes [65%Z]))]].
Definition demo_class : fields_of_class := [("a", CRef 0); ("b", CRef 1); ("c", CVal (VInt 5))].
Definition demo_ops : list op :=
  [ ONew []; ONew [("b", SVal VNone)];
    OChange (mkPath 0 "a" []) (ChList [SPath (mkPath 0 "a" [0%nat]); SVal (VInt 9); SNew (LList [])]);
    OSet 1 "c" (SPath (mkPath 0 "a" [])); OChange (mkPath 1 "c" []) (ChList []) ].
Example C29_nonvacuous :
  NoDup (map fst demo_class) /\ Forall (fun f => plain_default demo_heap (snd f)) demo_class
  /\ Forall keeps_apart (firstn 3 demo_ops) /\ Forall (elsewhere 1) [ONew []; OChange (mkPath 0 "b" []) (ChDict [])]
  /\ seen 5 (run (new_struct demo_class) (firstn 3 demo_ops) (start demo_heap)) 0
     = Some [("a", TList [TVal (VInt 1); TVal (VInt 9); TList []]); ("b", TDict [(VInt 0, TVal (VBytes [65%Z]))]); ("c", TVal (VInt 5))]
  /\ seen 5 (run (new_struct demo_class) demo_ops (start demo_heap)) 0
     = Some [("a", TList []); ("b", TDict [(VInt 0, TVal (VBytes [65%Z]))]); ("c", TVal (VInt 5))]
  /\ seen 5 (step (new_struct demo_class) (run (new_struct demo_class) demo_ops (start demo_heap)) (ONew [])) 2
     = Some [("a", TList [TVal (VInt 1); TVal (VInt 2)]); ("b", TDict [(VInt 0, TVal (VBytes [65%Z]))]); ("c", TVal (VInt 5))]
  /\ seen 5 (run (new_buffer demo_class) (firstn 3 demo_ops) (start demo_heap)) 1
     = Some [("b", TVal VNone); ("a", TList [TVal (VInt 1); TVal (VInt 9); TList []]); ("c", TVal (VInt 5))].
Proof.
  split; [cbn; repeat constructor; cbn; intuition discriminate|].
  split; [apply Forall_forall; intros f H; cbn in H; destruct H as [<-|[<-|[<-|[]]]]; cbn; [eexists|eexists|exact I];
          (split; [reflexivity|]; split; [repeat constructor|exact I])|].
  split; [repeat constructor|]. split; [repeat constructor; cbn; lia|]. vm_compute. auto.
Qed.

(** Property C113: threads that share an object with lazy containers. *)
From Verif Require Import Base IntCodec BitStringIO Stream StreamSpec StreamProofs MinMax Marshal FieldSpec Lazy LazySpec LazyFacts Threads ThreadsSpec ThreadsFacts ThreadsRun ThreadsLinear ThreadsTorn ThreadsErrors.
From Coq Require Import ZArith List Bool String Lia.
Import ListNotations.
Open Scope string_scope.
Open Scope list_scope.
Open Scope Z_scope.

(** C113.  Any number of threads read fields of an object that was just read from a stream, and turn it to bytes, interrupted anywhere.
    Whatever the schedule and at any moment, every statement so far gave the answer that the object gives without laziness, or, for a
    field of a lazy container and for to_bytes of a class with lazy containers, raised KeyError or AttributeError.  It never gives
    anything else. *)
Theorem C113_reads : forall h cls cctx items c s E s' programs,
  Forall (item_ok h) items -> NoDup (flat_map item_names items) -> stream_ok s ->
  read h (MStruct cls cctx (map eager items)) c s = (Ok (VObj cls E), s') -> only_reads programs ->
  exists o, lazy_read h cls cctx items c s = (Ok o, s') /\ forall l i u r,
    In (u, r) (got (schedule h cls cctx items l (start o programs)) i) ->
    answer_of (u, r) = fst (use_eager h cls cctx (map eager items) (use_of u) E)
    \/ (touches items u /\ (r = Err KeyError \/ r = Err AttributeError)).
Proof. exact shared_reads. Qed.
Print Assumptions C113_reads.

(** C113.  Whatever the threads do, assigning included: an assignment returns, or raises AttributeError for a field of a lazy container and
    InstructError for anything else (a constant); a field that is read gives a value or AttributeError, or KeyError if it is in a lazy
    container. *)
Theorem C113_errors : forall h cls cctx items c s E s' programs,
  Forall (item_ok h) items -> NoDup (flat_map item_names items) -> stream_ok s ->
  read h (MStruct cls cctx (map eager items)) c s = (Ok (VObj cls E), s') ->
  exists o, lazy_read h cls cctx items c s = (Ok o, s') /\ forall l i u r,
    In (u, r) (got (schedule h cls cctx items l (start o programs)) i) -> let lazy n := In n (flat_map group_names items) in
    match u with
    | OGet n => (exists v, r = Ok v) \/ r = Err AttributeError \/ (lazy n /\ r = Err KeyError)
    | OSet n _ => r = Ok VNone \/ (lazy n /\ r = Err AttributeError) \/ (~ lazy n /\ r = Err InstructError)
    | OBytes => True
    end.
Proof. exact shared_errors. Qed.
Print Assumptions C113_errors.

(** C113.  Once those threads are done the object is like one without laziness, for every history of uses. *)
Theorem C113_settles : forall h cls cctx items c s E s' programs,
  Forall (item_ok h) items -> NoDup (flat_map item_names items) -> stream_ok s ->
  read h (MStruct cls cctx (map eager items)) c s = (Ok (VObj cls E), s') -> only_reads programs ->
  exists o, lazy_read h cls cctx items c s = (Ok o, s') /\ forall l, over (schedule h cls cctx items l (start o programs)) ->
    forall us, history_lazy h cls cctx items us (sh_obj (schedule h cls cctx items l (start o programs))) = history_eager h cls cctx (map eager items) us E.
Proof. exact shared_settles. Qed.
Print Assumptions C113_settles.

(** C113.  No thread waits for another one: for all programs there is a number of steps such that every schedule that gives each
    thread so many turns brings all of them to their end. *)
Theorem C113_ends : forall h cls cctx items o programs,
  exists N, forall l, (forall i, (i < List.length programs)%nat -> (N <= turns i l)%nat) -> over (schedule h cls cctx items l (start o programs)).
Proof. exact comes_to_end. Qed.
Print Assumptions C113_ends.

(** C113.  A thread that is alone with the object gets the answers of the history of its statements, failures included. *)
Theorem C113_alone : forall h cls cctx items us o, Forall lazy_ok items -> exists N,
  over (schedule h cls cctx items (repeat 0%nat N) (start o [us]))
  /\ map answer_of (got (schedule h cls cctx items (repeat 0%nat N) (start o [us])) 0) = history_lazy h cls cctx items (map use_of us) o.
Proof. exact shared_alone. Qed.
Print Assumptions C113_alone.

(** Expected: threads may share an object for reading.  For every class, every field of a lazy container and every input, two
    threads that read the field can be scheduled so that one of them gets the value and the other one KeyError; and so that the
    other one gets AttributeError. *)
Theorem C113_race_refuted : forall h cls cctx items c s E s' n e,
  Forall (item_ok h) items -> NoDup (flat_map item_names items) -> stream_ok s ->
  read h (MStruct cls cctx (map eager items)) c s = (Ok (VObj cls E), s') ->
  In n (flat_map group_names items) -> e = KeyError \/ e = AttributeError ->
  exists o l, lazy_read h cls cctx items c s = (Ok o, s') /\ over (schedule h cls cctx items l (start o [[OGet n]; [OGet n]]))
    /\ got (schedule h cls cctx items l (start o [[OGet n]; [OGet n]])) 0 = [(OGet n, py_getattr (VObj cls E) n)]
    /\ got (schedule h cls cctx items l (start o [[OGet n]; [OGet n]])) 1 = [(OGet n, Err e)].
Proof. exact shared_race. Qed.
Print Assumptions C113_race_refuted.

(** Expected: an assignment that returned is in the object, if nothing else is assigned.  One thread reads a field of a lazy
    container, another one assigns it: they can be scheduled so that the assignment returns and leaves no trace. *)
Theorem C113_lost_update_refuted : forall h cls cctx items c s E s' n x,
  Forall (item_ok h) items -> NoDup (flat_map item_names items) -> stream_ok s ->
  read h (MStruct cls cctx (map eager items)) c s = (Ok (VObj cls E), s') -> In n (flat_map group_names items) ->
  exists o l, lazy_read h cls cctx items c s = (Ok o, s') /\ over (schedule h cls cctx items l (start o [[OGet n]; [OSet n x]]))
    /\ got (schedule h cls cctx items l (start o [[OGet n]; [OSet n x]])) 1 = [(OSet n x, Ok VNone)]
    /\ forall us, history_lazy h cls cctx items us (sh_obj (schedule h cls cctx items l (start o [[OGet n]; [OSet n x]])))
                  = history_eager h cls cctx (map eager items) us E.
Proof. exact shared_lost. Qed.
Print Assumptions C113_lost_update_refuted.

(** C113.  What helps is to_bytes before the object is shared.  Then, whatever fields the threads read and assign and however they are
    scheduled, there is an order of their statements, which keeps the order of each thread, in which an object without laziness gives
    all the answers they got, and is left like theirs. *)
Theorem C113_after_to_bytes : forall h cls cctx items c s E s' bytes programs l,
  Forall (item_ok h) items -> NoDup (flat_map item_names items) -> stream_ok s ->
  read h (MStruct cls cctx (map eager items)) c s = (Ok (VObj cls E), s') ->
  write_to_string h (MStruct cls cctx (map eager items)) (VObj cls E) = Ok bytes -> only_fields programs ->
  exists o o1, lazy_read h cls cctx items c s = (Ok o, s') /\ lazy_to_bytes h cls cctx items o = (Ok bytes, o1) /\ exists g : log,
    (forall i, of_thread i g = got (schedule h cls cctx items l (start o1 programs)) i)
    /\ forall us, history_eager h cls cctx (map eager items) (log_uses g ++ us) E
       = log_answers g ++ history_lazy h cls cctx items us (sh_obj (schedule h cls cctx items l (start o1 programs))).
Proof. exact bytes_linear. Qed.
Print Assumptions C113_after_to_bytes.

(** Expected: then to_bytes too gives the bytes of an object that was there at some moment.  One thread calls to_bytes, another one
    assigns one field and then a field that is declared later: they can be scheduled so that the bytes are those of an object that has
    the second assignment and not the first. *)
Theorem C113_torn_bytes_refuted : forall h cls cctx l1 l2 c s E s' bytes n1 n2 x y bytes', let items := l1 ++ l2 in
  Forall (item_ok h) items -> NoDup (flat_map item_names items) -> stream_ok s ->
  read h (MStruct cls cctx (map eager items)) c s = (Ok (VObj cls E), s') ->
  write_to_string h (MStruct cls cctx (map eager items)) (VObj cls E) = Ok bytes ->
  In n1 (flat_map stored_names (map eager l1)) -> In n2 (flat_map stored_names (map eager l2)) ->
  write_to_string h (MStruct cls cctx (map eager items)) (VObj cls (set_attr E n2 y)) = Ok bytes' ->
  exists o o1 l, lazy_read h cls cctx items c s = (Ok o, s') /\ lazy_to_bytes h cls cctx items o = (Ok bytes, o1)
    /\ over (schedule h cls cctx items l (start o1 [[OBytes]; [OSet n1 x; OSet n2 y]]))
    /\ got (schedule h cls cctx items l (start o1 [[OBytes]; [OSet n1 x; OSet n2 y]])) 0 = [(OBytes, Ok (VBytes bytes'))]
    /\ got (schedule h cls cctx items l (start o1 [[OBytes]; [OSet n1 x; OSet n2 y]])) 1 = [(OSet n1 x, Ok VNone); (OSet n2 y, Ok VNone)].
Proof. exact shared_torn. Qed.
Print Assumptions C113_torn_bytes_refuted.

(** A field, and a container with a number, a padding and a string. *)
Definition thread_items : list item :=
  [ IField (FField "id" (MInt UBInt8Marshal) VNone);
    ILazy [FField "x" (MInt UBInt16Marshal) VNone; FAnon (MBytePad 1 0); FField "y" (MPadStr 2 (VBytes [0]) PRight) VNone] ].
Definition thread_input : list Z := [7; 1; 2; 0; 65; 66; 255].
Definition thread_programs : list (list op) := [[OGet "y"; OGet "id"]; [OGet "x"; OBytes; OGet "y"]; [OGet "zz"]].
Definition thread_setters : list (list op) := [[OGet "y"; OSet "x" (VInt 1)]; [OSet "id" (VInt 2)]].

Example C113_nonvacuous :
  Forall (item_ok HostLittle) thread_items /\ Forall lazy_ok thread_items /\ NoDup (flat_map item_names thread_items) /\ stream_ok (stream_of thread_input)
  /\ only_reads thread_programs /\ only_fields thread_setters /\ In "y" (flat_map group_names thread_items)
  /\ In "id" (flat_map stored_names (map eager (firstn 1 thread_items))) /\ In "y" (flat_map stored_names (map eager (skipn 1 thread_items)))
  /\ (exists E s' bytes, read HostLittle (MStruct "T" None (map eager thread_items)) [] (stream_of thread_input) = (Ok (VObj "T" E), s')
        /\ write_to_string HostLittle (MStruct "T" None (map eager thread_items)) (VObj "T" E) = Ok bytes /\ bytes = [7; 1; 2; 0; 65; 66]
        /\ write_to_string HostLittle (MStruct "T" None (map eager thread_items)) (VObj "T" (set_attr E "y" (VBytes [67]))) = Ok [7; 1; 2; 0; 67; 0])
  /\ (exists o s', lazy_read HostLittle "T" None thread_items [] (stream_of thread_input) = (Ok o, s')
        /\ let w := schedule HostLittle "T" None thread_items [0; 1; 1; 1; 1; 1; 0; 0; 2; 0; 1; 1; 1; 1; 1; 1; 1; 1; 1; 1; 1; 1; 1; 1; 1; 1; 1; 1; 1; 1]%nat (start o thread_programs) in
           got w 0 = [(OGet "y", Err KeyError); (OGet "id", Ok (VInt 7))]
           /\ got w 1 = [(OGet "x", Ok (VInt 258)); (OBytes, Ok (VBytes [7; 1; 2; 0; 65; 66])); (OGet "y", Ok (VBytes [65; 66]))] /\ got w 2 = [(OGet "zz", Err AttributeError)]
           /\ over w).
Proof.
  assert (I2 : item_ok HostLittle (ILazy [FField "x" (MInt UBInt16Marshal) VNone; FAnon (MBytePad 1 0); FField "y" (MPadStr 2 (VBytes [0]) PRight) VNone]))
    by (split; [repeat constructor; unfold maxsize; cbn; lia|]; exists 5; split; [reflexivity|unfold maxsize; lia]).
  assert (I : Forall (item_ok HostLittle) thread_items) by (repeat apply Forall_cons; try apply Forall_nil; [cbn [item_ok blind]; reflexivity|exact I2]).
  split; [exact I|]. split; [exact (ok_lazy _ _ I)|]. split; [cbn; repeat constructor; cbn; intuition discriminate|].
  split; [apply stream_of_ok|]. split.
  { intros l u Hl Hu. cbn in Hl. destruct Hl as [<-|[<-|[<-|[]]]]; cbn in Hu; repeat (destruct Hu as [<-|Hu]; [first [right; reflexivity|left; eexists; reflexivity]|]); contradiction. }
  split; [intros l [<-|[<-|[]]] Hb; cbn in Hb; intuition discriminate|]. split; [cbn; auto|]. split; [cbn; auto|]. split; [cbn; auto|]. split.
  - eexists _, _, _. split; [vm_compute; reflexivity|]. split; [vm_compute; reflexivity|]. split; vm_compute; reflexivity.
  - eexists _, _. split; [vm_compute; reflexivity|]. vm_compute.
    split; [reflexivity|]. split; [reflexivity|]. split; [reflexivity|]. intros t Ht. destruct Ht as [<-|[<-|[<-|[]]]]; split; reflexivity.
Qed.

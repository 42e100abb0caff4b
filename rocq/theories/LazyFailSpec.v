(** Specification vocabulary for what happens after a lazy container could not be decoded. *)
From Verif Require Import Base Marshal FieldSpec Lazy LazySpec.
From Coq Require Import ZArith List Bool String.
Import ListNotations.
Open Scope Z_scope.

(** The names under which fields store values. *)
Definition names_of (fs : list field) : list name := flat_map stored_names fs.
(** A use that needs what is in the container. *)
Definition needs (fs : list field) (u : use) : Prop := match u with Get n | Set_ n _ => In n (names_of fs) | ToBytes => True end.
(** An answer that is an exception. *)
Definition raised (e : exn) (x : answer) : Prop := match x with AValue (Err e') | ADone (Err e') | ABytes (Err e') => e' = e | _ => False end.
(** Assigning values to names, one after the other, and the attributes of an object afterwards. *)
Definition assignments (ws : attrs) : list use := map (fun w => Set_ (fst w) (snd w)) ws.
Definition assigned (ws : attrs) (a : attrs) : attrs := fold_left (fun a w => set_attr a (fst w) (snd w)) ws a.

(** Specification vocabulary for strings, arrays, constants, pointers and selectors. *)
From Verif Require Import Base IntCodec Stream StreamSpec MinMax Marshal.
From Coq Require Import ZArith List Bool String.
Import ListNotations.
Open Scope Z_scope.

(** [trims left right set b core]: [core] is [b] without the bytes of [set] at its left end
    (if [left]) and at its right end (if [right]). *)
Definition trims (left right : bool) (set b core : list Z) : Prop :=
  exists l r, b = l ++ core ++ r
    /\ Forall (fun x => In x set) l /\ Forall (fun x => In x set) r
    /\ (if left then forall x t, core = x :: t -> ~ In x set else l = [])
    /\ (if right then forall x t, core = t ++ [x] -> ~ In x set else r = []).

Definition trims_left (d : paddir) : bool := match d with PLeft | PBoth => true | _ => false end.
Definition trims_right (d : paddir) : bool := match d with PRight | PBoth => true | _ => false end.

(** A value round-trips with encoding [enc] on plain streams, wherever it stands. *)
Definition roundtrips (h : host) (m : marshal) (c : ctx) (v : value) (enc : list Z) : Prop :=
  (forall out, write h m v out = (Ok tt, out ++ enc))
  /\ forall pre tail, read h m c (SBytesIO (pre ++ enc ++ tail) (zlen pre))
       = (Ok v, SBytesIO (pre ++ enc ++ tail) (zlen pre + zlen enc)).

(** ** The loop of SumSizeArrayMarshal.create_from_stream (array.py:58-65), on a stream that
    supports [tell]: one iteration after the other, until [total <= 0].  [None]: still running
    after [fuel] iterations. *)
Definition tell_of (s : stream) : Z := match s with SBytesIO _ p => p | _ => 0 end.
Fixpoint sum_iter (fuel : nat) (rd : stM stream value) (total : Z) (s : stream) (acc : list value)
  : option (res (list value) * stream) :=
  if total >? 0 then
    match fuel with
    | O => None
    | S fuel' =>
        match rd s with
        | (Err e, s') => Some (Err e, s')
        | (Ok v, s') => sum_iter fuel' rd (total - (tell_of s' - tell_of s)) s' (acc ++ [v])
        end
    end
  else Some (if total =? 0 then Ok acc else Err AssertionError, s).

(** The loop variables after [n] iterations, if the loop gets that far. *)
Fixpoint after_iterations (n : nat) (rd : stM stream value) (total : Z) (s : stream) : option (Z * stream) :=
  match n with
  | O => Some (total, s)
  | S n' =>
      if total >? 0 then
        match rd s with
        | (Ok v, s') => after_iterations n' rd (total - (tell_of s' - tell_of s)) s'
        | (Err _, _) => None
        end
      else None
  end.

(** ** Names of the fields that keyword arguments and reading store under. *)
Fixpoint stored_names (f : field) : list name :=
  match f with
  | FField n _ _ | FOpt n _ _ _ => [n]
  | FAnon _ | FConst _ _ _ => []
  | FGroup fs => flat_map stored_names fs
  | FBits bs | FPosBits _ bs => flat_map (fun b => match b with BField n _ _ => [n] | _ => [] end) bs
  end.

(** ** Nested structs: at each level a class, the fields before, the name of the field that
    holds the next level, and the fields behind it. *)
Record level : Type := mkLevel { lv_cls : name; lv_ctx : option ctx; lv_before : list field;
                                 lv_name : name; lv_default : value }.
Fixpoint nest (levels : list level) (inner : marshal) : marshal :=
  match levels with
  | [] => inner
  | l :: r => MStruct (lv_cls l) (lv_ctx l) (lv_before l ++ [FField (lv_name l) (nest r inner) (lv_default l)])
  end.
(** [obj.a.b.c] *)
Fixpoint getattr_path (v : value) (path : list name) : res value :=
  match path with
  | [] => Ok v
  | n :: r => let* w := py_getattr v n in getattr_path w r
  end.

(** Specification vocabulary for bit fields: which bits of the container a field owns, and what it
    means for these bits to hold a value. *)
From Verif Require Import Base Marshal.
From Coq Require Import ZArith List Bool.
Import ListNotations.
Open Scope Z_scope.

(** Does the field, when placed at bit [pos], own bit [i] of the container? *)
Fixpoint owns (m : bitmarshal) (pos i : Z) : bool :=
  match m with
  | BMBits n | BMPad n => (pos <=? i) && (i <? pos + n)
  | BMMap _ m' => owns m' pos i
  | BMPos sl => existsb (fun s => (fst s <=? i) && (i <? snd s)) sl
  end.

(** The slices of a positional field hold consecutive parts of [z], starting at bit [o] of [z]. *)
Fixpoint slices_hold (val : list Z) (sl : list (Z * Z)) (z o : Z) : Prop :=
  match sl with
  | [] => True
  | (start, stop) :: r =>
      (forall i, 0 <= i < stop - start -> bit_at val (start + i) = Z.testbit z (o + i))
      /\ slices_hold val r z (o + (stop - start))
  end.

(** The bits owned by the field hold the value [v]. *)
Fixpoint holds (val : list Z) (pos : Z) (m : bitmarshal) (v : value) : Prop :=
  match m with
  | BMBits n => exists z, v = VInt z /\ forall i, 0 <= i < n -> bit_at val (pos + i) = Z.testbit z i
  | BMPad n => forall i, 0 <= i < n -> bit_at val (pos + i) = false
  | BMMap tbl m' => exists w, dict_get tbl v = Ok w /\ holds val pos m' w
  | BMPos sl => exists z, v = VInt z /\ slices_hold val sl z 0
  end.

(** Widths are not negative; the slices of one field are non-empty and do not overlap. *)
Fixpoint slices_disjoint (sl : list (Z * Z)) : Prop :=
  match sl with
  | [] => True
  | s :: r => Forall (fun t => snd s <= fst t \/ snd t <= fst s) r /\ slices_disjoint r
  end.
Fixpoint bm_wf (m : bitmarshal) : Prop :=
  match m with
  | BMBits n | BMPad n => 0 <= n
  | BMMap _ m' => bm_wf m'
  | BMPos sl => Forall (fun s => 0 <= fst s < snd s) sl /\ slices_disjoint sl
  end.

(** Fields addressed by their order, and fields addressed by explicit bit slices. *)
Fixpoint bm_sequential (m : bitmarshal) : bool :=
  match m with BMBits _ | BMPad _ => true | BMMap _ m' => bm_sequential m' | BMPos _ => false end.
Fixpoint bm_positional (m : bitmarshal) : bool :=
  match m with BMBits _ | BMPad _ => false | BMMap _ m' => bm_positional m' | BMPos _ => true end.

(** The field is entirely inside a container of [bits] bits. *)
Fixpoint bm_fits (m : bitmarshal) (pos bits : Z) : Prop :=
  match m with
  | BMBits n | BMPad n => 0 <= pos /\ pos + n <= bits
  | BMMap _ m' => bm_fits m' pos bits
  | BMPos sl => Forall (fun s => snd s <= bits) sl
  end.

(** Values a field can write: integers, respectively keys of the map. *)
Fixpoint bm_accepts (m : bitmarshal) (v : value) : Prop :=
  match m with
  | BMBits _ | BMPos _ => exists z, v = VInt z
  | BMPad _ => True
  | BMMap tbl m' => exists w, dict_get tbl v = Ok w /\ bm_accepts m' w
  end.

(** What comes back: the value modulo two to the width of the field. *)
Fixpoint bm_norm (m : bitmarshal) (v : value) : res value :=
  match m with
  | BMBits n => match v with VInt z => Ok (VInt (z mod 2 ^ n)) | _ => Err TypeError end
  | BMPad n => Ok (VInt 0)
  | BMMap tbl m' => let* w := dict_get tbl v in let* w' := bm_norm m' w in map_reverse tbl w'
  | BMPos sl => match v with VInt z => Ok (VInt (z mod 2 ^ bm_size m)) | _ => Err TypeError end
  end.

(** ** Groups of fields.  [pos] is where the first one starts. *)
Fixpoint fields_own (fs : list bitfield) (pos i : Z) : bool :=
  match fs with
  | [] => false
  | f :: r => owns (bf_marshal f) pos i || fields_own r (pos + bm_size (bf_marshal f)) i
  end.
Fixpoint fields_disjoint (fs : list bitfield) (pos : Z) : Prop :=
  match fs with
  | [] => True
  | f :: r => (forall i, owns (bf_marshal f) pos i = true ->
                         fields_own r (pos + bm_size (bf_marshal f)) i = false)
              /\ fields_disjoint r (pos + bm_size (bf_marshal f))
  end.
Fixpoint fields_fit (fs : list bitfield) (pos bits : Z) : Prop :=
  match fs with
  | [] => True
  | f :: r => bm_fits (bf_marshal f) pos bits /\ fields_fit r (pos + bm_size (bf_marshal f)) bits
  end.
Fixpoint fields_hold (val : list Z) (fs : list bitfield) (pos : Z) (a : attrs) : Prop :=
  match fs with
  | [] => True
  | f :: r => holds val pos (bf_marshal f) (bf_value f a)
              /\ fields_hold val r (pos + bm_size (bf_marshal f)) a
  end.

(** Attributes after reading the fields back. *)
Fixpoint fields_norm (fs : list bitfield) (a acc : attrs) : res attrs :=
  match fs with
  | [] => Ok acc
  | f :: r =>
      let* v := bm_norm (bf_marshal f) (bf_value f a) in
      match f with
      | BField n _ _ => fields_norm r a (set_attr acc n v)
      | BAnon _ => fields_norm r a acc
      | BConst _ _ k => if py_eq v k then fields_norm r a acc else Err InstructError
      end
  end.

(** Total width of a group. *)
Definition total_bits (fs : list bitfield) : Z :=
  fold_left Z.add (map (fun f => bm_size (bf_marshal f)) fs) 0.

(** ** Plain groups: named integers and padding, by width. *)
Inductive bititem : Type := Named (n : name) (width : Z) | Padding (width : Z).
Definition item_width (it : bititem) : Z := match it with Named _ w | Padding w => w end.
Definition item_field (it : bititem) : bitfield :=
  match it with Named n w => BField n (BMBits w) VNone | Padding w => BAnon (BMPad w) end.
Definition item_names (its : list bititem) : list name :=
  flat_map (fun it => match it with Named n _ => [n] | Padding _ => [] end) its.
Definition widths (its : list bititem) : Z := fold_left Z.add (map item_width its) 0.
Definition slices_width (sl : list (Z * Z)) : Z := fold_left Z.add (map (fun s => snd s - fst s) sl) 0.

(** ** Positional groups: names with their bit slices. *)
Definition pos_field (p : name * list (Z * Z)) : bitfield := BField (fst p) (BMPos (snd p)) VNone.

(** Do the slices of a field contain bit [i]? *)
Definition in_slices (sl : list (Z * Z)) (i : Z) : Prop := exists s, In s sl /\ fst s <= i < snd s.

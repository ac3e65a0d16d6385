(** Specification of bit sets and bit streams: a set of numbers, and a
    big-endian number being extended at its low end. *)
From Verif Require Import Base BitsModel.

(** Last operation on a position decides; positions never touched keep their value. *)
Fixpoint set_spec (ops : list bm_op) (init : bool) (pos : Z) : bool :=
  match ops with
  | [] => init
  | BmSet b :: ops' => set_spec ops' (if b =? pos then true else init) pos
  | BmReset b :: ops' => set_spec ops' (if b =? pos then false else init) pos
  end.

Definition bm_op_pos (o : bm_op) : Z := match o with BmSet b | BmReset b => b end.

(** What a reader must get back for a written item. *)
Definition expect (i : witem) : ritem :=
  match i with
  | WField v bits => RIField (v mod 2 ^ bits)
  | WPad => RIPad
  | WBytes b => RIBytes b
  end.

(** Number of bits used after writing item i at bit position o. *)
Definition pad8 (o : Z) : Z := (o + 7) / 8 * 8.
Definition end_of (o : Z) (i : witem) : Z :=
  match i with
  | WField _ bits => o + bits
  | WPad => pad8 o
  | WBytes b => pad8 o + 8 * zlen b
  end.
Fixpoint end_all (o : Z) (l : list witem) : Z :=
  match l with [] => o | i :: l' => end_all (end_of o i) l' end.

(** Fields of 1..56 bits and pads only. *)
Definition plain (i : witem) : Prop :=
  match i with WField v bits => 1 <= bits <= 56 /\ is_u64 v | WPad => True | WBytes _ => False end.

(** Bit [i] (counted from the first, most significant bit) of a byte string. *)
Definition bit_at (l : bytes) (i : Z) : bool :=
  match zget l (i / 8) with Some b => Z.testbit b (7 - i mod 8) | None => false end.

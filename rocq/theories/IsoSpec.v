(** Specification for C37: what a number text means. *)
From Verif Require Import Base StrBase.

(** value of a text of decimal digits, by place value *)
Fixpoint place_val (s : bytes) : Z :=
  match s with
  | [] => 0
  | c :: r => (c - 48) * 10 ^ zlen r + place_val r
  end.
Definition digits (s : bytes) : Prop := Forall (fun c => 48 <= c <= 57) s.

(** letters of the prefixes: k = 1000, M = 1000^2, ... *)
Inductive prefix : bytes -> Z -> Prop :=
| p_none : prefix [] 0
| p_k : prefix (zs "k") 1 | p_M : prefix (zs "M") 2 | p_G : prefix (zs "G") 3
| p_T : prefix (zs "T") 4 | p_P : prefix (zs "P") 5 | p_E : prefix (zs "E") 6.

(** [IsoText t n d p]: [t] stands for the number n / 10^d * 1000^p *)
Definition IsoText (t : bytes) (n d p : Z) : Prop :=
  exists w f point sp pre, t = w ++ point ++ sp ++ pre /\
    w <> [] /\ digits w /\ digits f /\ (point = [] /\ f = [] \/ point = 46 :: f) /\
    Forall (fun c => c = 32) sp /\ prefix pre p /\ n = place_val (w ++ f) /\ d = zlen f.
(** the largest integer not above [scaling] times that number *)
Definition iso_value (n d p scaling : Z) : Z := n * 1000 ^ p * scaling / 10 ^ d.

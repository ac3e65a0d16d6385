(** What the neighbors of a router may expect from the addresses in its HELLOs. *)
From Verif Require Import Base NhdpModel NhdpSpec HwModel.

(** ** Own addresses, by the history of the interfaces *)
(** the addresses the interface got with its last event *)
Fixpoint current (ops : list ifop) (i : Z) (a : addr) : Prop :=
  match ops with
  | [] => False
  | IfEvent j l :: r => if j =? i then In a l else current r i a
  | IfTimeout _ _ :: r => current r i a
  | IfGone j :: r => j <> i /\ current r i a
  end.
(** those, and the ones it had before until their hold time is over (the newest event comes first) *)
Fixpoint known (ops : list ifop) (i : Z) (a : addr) : Prop :=
  match ops with
  | [] => False
  | IfEvent j l :: r => j = i /\ In a l \/ known r i a
  | IfTimeout j b :: r => known r i a /\ (j = i -> b = a -> current r i a)
  | IfGone j :: r => j <> i /\ known r i a
  end.
Definition now (ops : list ifop) (i : Z) (a : addr) : Prop := current (rev ops) i a.
Definition held (ops : list ifop) (i : Z) (a : addr) : Prop := known (rev ops) i a /\ ~ now ops i a.

(** ** Neighbors *)
(** the link of interface [i] with address [a] *)
Definition link_at (s : db) (i : Z) (a : addr) (l : link) : Prop :=
  In l (s_l s) /\ exists la, In la (s_la s) /\ la_if la = i /\ la_addr la = a /\ la_l la = l_id l.
(** the address is announced as one of a symmetric neighbor *)
Definition tells_sym (x : haddr) : Prop := ha_status x = Some SYMMETRIC \/ ha_other x = Some 1.
Definition tells_nothing (x : haddr) : Prop := ha_status x = None /\ ha_other x = Some 0.

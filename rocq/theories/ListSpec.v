(** Lists as sequences: every head owns a sequence of nodes. *)
From Verif Require Import Base ListModel.

Definition lstate := Z -> list Z.

Fixpoint ins_before (pos n : Z) (l : list Z) : list Z :=
  match l with [] => [] | x :: l' => if x =? pos then n :: x :: l' else x :: ins_before pos n l' end.
Fixpoint ins_after (pos n : Z) (l : list Z) : list Z :=
  match l with [] => [] | x :: l' => if x =? pos then x :: n :: l' else x :: ins_after pos n l' end.
Definition del (n : Z) (l : list Z) : list Z := filter (fun x => negb (x =? n)) l.

Definition sstep (A : lstate) (o : lop) : lstate :=
  match o with
  | AddHead hd n => upd A hd (n :: A hd)
  | AddTail hd n => upd A hd (A hd ++ [n])
  | AddBefore p n => fun hd => ins_before p n (A hd)
  | AddAfter p n => fun hd => ins_after p n (A hd)
  | Remove n => fun hd => del n (A hd)
  | Merge a b => upd (upd A a (A a ++ A b)) b []
  end.

(** What a caller has to respect: heads are heads, added nodes are in no list,
    reference nodes and removed nodes are in one. *)
Definition fresh (H : list Z) (A : lstate) (n : Z) : Prop :=
  ~ In n H /\ forall hd, In hd H -> ~ In n (A hd).
Definition placed (H : list Z) (A : lstate) (n : Z) : Prop := exists hd, In hd H /\ In n (A hd).
Definition sok (H : list Z) (A : lstate) (o : lop) : Prop :=
  match o with
  | AddHead hd n | AddTail hd n => In hd H /\ fresh H A n
  | AddBefore p n | AddAfter p n => placed H A p /\ fresh H A n
  | Remove n => placed H A n
  | Merge a b => In a H /\ In b H /\ a <> b
  end.
Fixpoint sruns (H : list Z) (A : lstate) (ops : list lop) (A' : lstate) : Prop :=
  match ops with
  | [] => A' = A
  | o :: ops' => sok H A o /\ sruns H (sstep A o) ops' A'
  end.

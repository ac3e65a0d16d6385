(** An AVL tree seen from outside: an ordered sequence of nodes. *)
From Verif Require Import Base AvlModel.

Section Spec.
Context {K : Type} (comp : K -> K -> Z) (key : Z -> K) (dups : bool).

(** where a new node goes: in front of the first larger one, right behind the
    first equal one (only with [dups]), otherwise at the end *)
Fixpoint seq_insert (n : Z) (l : list Z) : option (list Z) :=
  match l with
  | [] => Some [n]
  | x :: r =>
    let d := comp (key n) (key x) in
    if d <? 0 then Some (n :: x :: r)
    else if d =? 0 then (if dups then Some (x :: n :: r) else None)
    else option_map (cons x) (seq_insert n r)
  end.
Definition seq_remove (n : Z) (l : list Z) : list Z := filter (fun x => negb (x =? n)) l.

(** an insert call needs a node that is not in the tree, a remove call one that is *)
Definition seq_ok (P : K -> Prop) (head : Z) (l : list Z) (o : aop) : Prop :=
  match o with
  | AIns n => n <> head /\ ~ In n l /\ P (key n)
  | ARem n => In n l
  end.
Definition seq_step (l : list Z) (o : aop) : list Z * list Z :=
  match o with
  | AIns n => match seq_insert n l with Some l' => (l', [0]) | None => (l, [-1]) end
  | ARem n => (seq_remove n l, [])
  end.
Inductive seq_run (P : K -> Prop) (head : Z) : list Z -> list aop -> list Z -> list Z -> Prop :=
| seq_nil l : seq_run P head l [] l []
| seq_cons l o ops l' rs :
    seq_ok P head l o -> seq_run P head (fst (seq_step l o)) ops l' rs ->
    seq_run P head l (o :: ops) l' (snd (seq_step l o) ++ rs).

(** lookups *)
Definition first_with (f : K -> bool) (l : list Z) : option Z := find (fun x => f (key x)) l.
Definition last_with (f : K -> bool) (l : list Z) : option Z := find (fun x => f (key x)) (rev l).

(** The shape of a tree: stored balance at every node. *)
Inductive tree := L | N (l : tree) (x b : Z) (r : tree).
Fixpoint height (t : tree) : Z := match t with L => 0 | N l _ _ r => 1 + Z.max (height l) (height r) end.
Fixpoint size (t : tree) : Z := match t with L => 0 | N l _ _ r => 1 + size l + size r end.
Fixpoint inorder (t : tree) : list Z := match t with L => [] | N l x _ r => inorder l ++ x :: inorder r end.
Fixpoint balanced (t : tree) : Prop :=
  match t with L => True | N l x b r => b = height r - height l /\ -1 <= b <= 1 /\ balanced l /\ balanced r end.
Definition rootp (t : tree) : option Z := match t with L => None | N _ x _ _ => Some x end.
(** the heap holds the tree: child, parent and balance fields *)
Fixpoint rep (h : aheap) (t : tree) (parent : option Z) : Prop :=
  match t with
  | L => True
  | N l x b r => par h x = parent /\ lft h x = rootp l /\ rgt h x = rootp r /\ bal h x = b /\
                 rep h l (Some x) /\ rep h r (Some x)
  end.
Definition holds (h : aheap) (t : tree) : Prop := root h = rootp t /\ rep h t None.
End Spec.

(** A tree seen as a set of nodes, without any order: what a caller who only
    inserts and removes knows. *)
Section SetSpec.
Context {K : Type} (comp : K -> K -> Z) (key : Z -> K) (dups : bool) (P : K -> Prop) (head : Z).
Definition set_ok (s : list Z) (o : aop) : Prop :=
  match o with
  | AIns n => n <> head /\ ~ In n s /\ P (key n)
  | ARem n => In n s
  end.
Definition set_step (s : list Z) (o : aop) : list Z * list Z :=
  match o with
  | AIns n => if negb dups && existsb (fun x => comp (key n) (key x) =? 0) s then (s, [-1]) else (n :: s, [0])
  | ARem n => (seq_remove n s, [])
  end.
Fixpoint set_legal (s : list Z) (ops : list aop) : Prop :=
  match ops with [] => True | o :: ops => set_ok s o /\ set_legal (fst (set_step s o)) ops end.
Fixpoint set_run (s : list Z) (ops : list aop) : list Z * list Z :=
  match ops with
  | [] => (s, [])
  | o :: ops => let r := set_step s o in let r2 := set_run (fst r) ops in (fst r2, snd r ++ snd r2)
  end.
End SetSpec.

(** what a user of the tree can see of it *)
Definition avl_view (head : Z) (h : aheap) (l : list Z) : Prop :=
  (forall fuel, (length l < fuel)%nat -> avl_iterate head fuel h = Some l /\ avl_iterate_reverse head fuel h = Some (rev l)) /\
  cnt h = u32 (zlen l) /\
  (forall x, x <> head -> (avl_is_node_added h x = true <-> In x l)) /\
  (forall x, x <> head -> (avl_is_first head h x = true <-> exists r, l = x :: r)) /\
  (forall x, x <> head -> (avl_is_last head h x = true <-> exists r, l = r ++ [x])).

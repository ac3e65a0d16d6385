(** Model of include/oonf/libcommon/list.h: doubly linked lists on a heap.
    A location stands for the address of a [struct list_entity]; [None] is the
    NULL pointer.  Following a NULL pointer makes an operation return [None]. *)
From Verif Require Import Base.

Definition upd {A} (f : Z -> A) (x : Z) (v : A) : Z -> A := fun y => if y =? x then v else f y.

(** list.h:60-66 *)
Record lheap := { nx : Z -> option Z; pv : Z -> option Z }.
Definition set_nx (h : lheap) (x : Z) (v : option Z) : lheap := {| nx := upd (nx h) x v; pv := pv h |}.
Definition set_pv (h : lheap) (x : Z) (v : option Z) : lheap := {| nx := nx h; pv := upd (pv h) x v |}.

(** list.h:73-75 [list_init_head] *)
Definition list_init_head (h : lheap) (hd : Z) : lheap := set_nx (set_pv h hd (Some hd)) hd (Some hd).
(** list.h:82-84 [list_init_node] *)
Definition list_init_node (h : lheap) (x : Z) : lheap := set_nx (set_pv h x None) x None.

(** list.h:93-98 [__list_add] *)
Definition list_add_ (h : lheap) (prev next : option Z) (new : Z) : option lheap :=
  let h1 := set_nx h new next in
  let h2 := set_pv h1 new prev in
  match next with
  | None => None
  | Some n =>
    let h3 := set_pv h2 n (Some new) in
    match prev with
    | None => None
    | Some p => Some (set_nx h3 p (Some new))
    end
  end.
(** list.h:106-108, 116-118, 126-128, 136-138 *)
Definition list_add_head (h : lheap) (hd new : Z) : option lheap := list_add_ h (Some hd) (nx h hd) new.
Definition list_add_tail (h : lheap) (hd new : Z) : option lheap := list_add_ h (pv h hd) (Some hd) new.
Definition list_add_before (h : lheap) (before new : Z) : option lheap := list_add_ h (pv h before) (Some before) new.
Definition list_add_after (h : lheap) (after new : Z) : option lheap := list_add_ h (Some after) (nx h after) new.

(** list.h:146-149 [__list_remove] *)
Definition list_remove_ (h : lheap) (prev next : option Z) : option lheap :=
  match prev with
  | None => None
  | Some p =>
    let h1 := set_nx h p next in
    match next with
    | None => None
    | Some n => Some (set_pv h1 n (Some p))
    end
  end.
(** list.h:156-159 [list_remove] *)
Definition list_remove (h : lheap) (x : Z) : option lheap :=
  match list_remove_ h (pv h x) (nx h x) with
  | None => None
  | Some h' => Some (list_init_node h' x)
  end.

Definition ptr_eqb (a b : option Z) : bool :=
  match a, b with
  | Some x, Some y => x =? y
  | None, None => true
  | _, _ => false
  end.
(** list.h:167-169 *)
Definition list_is_empty (h : lheap) (hd : Z) : bool := ptr_eqb (nx h hd) (Some hd) && ptr_eqb (pv h hd) (Some hd).
(** list.h:178-180 *)
Definition list_is_node_added (h : lheap) (x : Z) : bool := negb (ptr_eqb (nx h x) None) && negb (ptr_eqb (pv h x) None).
(** list.h:189-191, 200-202 *)
Definition list_is_first (h : lheap) (hd x : Z) : bool := ptr_eqb (nx h hd) (Some x).
Definition list_is_last (h : lheap) (hd x : Z) : bool := ptr_eqb (pv h hd) (Some x).

(** list.h:211-223 [list_merge] *)
Definition list_merge (h : lheap) (add_to remove_from : Z) : option lheap :=
  if list_is_empty h remove_from then Some h
  else
    match pv h add_to with
    | None => None
    | Some tl1 =>
      let h1 := set_nx h tl1 (nx h remove_from) in
      match nx h1 remove_from with
      | None => None
      | Some fst2 =>
        let h2 := set_pv h1 fst2 (pv h1 add_to) in
        let h3 := set_pv h2 add_to (pv h2 remove_from) in
        match pv h3 remove_from with
        | None => None
        | Some tl2 => Some (list_init_head (set_nx h3 tl2 (Some add_to)) remove_from)
        end
      end
    end.

(** Iteration, list.h:330-390 (the list_for_each_element macros): follow next
    (prev) pointers until the head is reached again.  [None]: NULL pointer or
    fuel exhausted. *)
Fixpoint walk_next (fuel : nat) (h : lheap) (hd x : Z) : option (list Z) :=
  match fuel with
  | O => None
  | S f => match nx h x with
           | None => None
           | Some y => if y =? hd then Some []
                       else match walk_next f h hd y with None => None | Some l => Some (y :: l) end
           end
  end.
Fixpoint walk_prev (fuel : nat) (h : lheap) (hd x : Z) : option (list Z) :=
  match fuel with
  | O => None
  | S f => match pv h x with
           | None => None
           | Some y => if y =? hd then Some []
                       else match walk_prev f h hd y with None => None | Some l => Some (y :: l) end
           end
  end.

(** The operations as one step function. *)
Inductive lop :=
| AddHead (hd n : Z) | AddTail (hd n : Z) | AddBefore (pos n : Z) | AddAfter (pos n : Z)
| Remove (n : Z) | Merge (hd1 hd2 : Z).
Definition lstep (h : lheap) (o : lop) : option lheap :=
  match o with
  | AddHead hd n => list_add_head h hd n
  | AddTail hd n => list_add_tail h hd n
  | AddBefore p n => list_add_before h p n
  | AddAfter p n => list_add_after h p n
  | Remove n => list_remove h n
  | Merge a b => list_merge h a b
  end.
Fixpoint lrun (h : lheap) (ops : list lop) : option lheap :=
  match ops with
  | [] => Some h
  | o :: ops' => match lstep h o with None => None | Some h' => lrun h' ops' end
  end.
(** heads initialised, nodes cleared *)
Definition linit (heads : list Z) : lheap :=
  fold_left list_init_head heads {| nx := fun _ => None; pv := fun _ => None |}.

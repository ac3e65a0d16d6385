(** Model of src/libcommon/avl.c and the inline parts of
    include/oonf/libcommon/avl.h: an intrusive AVL tree on an explicit heap.

    A node is an address [Z].  [struct avl_node] (avl.h:71-111) starts with its
    [list_entity], so node and list entity share the address.  [None] stands for
    NULL; dereferencing NULL makes a function return [None].  Recursion and
    loops carry fuel; running out of fuel also gives [None].  Both are excluded
    by the theorems.  Keys never change while a node exists, so they are a
    function [key] from addresses; the comparator is a parameter.  One tree is
    modelled at a time (a node belongs to at most one tree). *)
From Verif Require Import Base ListModel.

(** struct avl_tree (avl.h:117-147) together with the avl_node fields *)
Record aheap := AH {
  ls : lheap;               (* list members of all nodes and of the list head *)
  par : Z -> option Z;      (* node->parent *)
  lft : Z -> option Z;      (* node->left *)
  rgt : Z -> option Z;      (* node->right *)
  bal : Z -> Z;             (* node->balance, signed char *)
  fol : Z -> bool;          (* node->follower *)
  root : option Z;          (* tree->root *)
  cnt : Z                   (* tree->count, uint32_t *)
}.
Definition set_ls h v := AH v (par h) (lft h) (rgt h) (bal h) (fol h) (root h) (cnt h).
Definition set_par h x v := AH (ls h) (upd (par h) x v) (lft h) (rgt h) (bal h) (fol h) (root h) (cnt h).
Definition set_lft h x v := AH (ls h) (par h) (upd (lft h) x v) (rgt h) (bal h) (fol h) (root h) (cnt h).
Definition set_rgt h x v := AH (ls h) (par h) (lft h) (upd (rgt h) x v) (bal h) (fol h) (root h) (cnt h).
Definition s8 (z : Z) : Z := (z + 128) mod 256 - 128.
Definition set_bal h x v := AH (ls h) (par h) (lft h) (rgt h) (upd (bal h) x (s8 v)) (fol h) (root h) (cnt h).
Definition set_fol h x v := AH (ls h) (par h) (lft h) (rgt h) (bal h) (upd (fol h) x v) (root h) (cnt h).
Definition set_root h v := AH (ls h) (par h) (lft h) (rgt h) (bal h) (fol h) v (cnt h).
Definition set_cnt h v := AH (ls h) (par h) (lft h) (rgt h) (bal h) (fol h) (root h) (u32 v).

Notation "x <- e ;; f" := (match e with Some x => f | None => None end) (at level 60, e at next level, right associativity).

(** Pointer surgery that avl.c repeats in place: make [new] the child of
    [parent] (or the root) where [old] was.  Lines 309-318, 382-391, 427-436,
    714-726, 733-745, 766-776. *)
Definition set_child (h : aheap) (parent : option Z) (old : Z) (new : option Z) : aheap :=
  match parent with
  | None => set_root h new
  | Some p => if ptr_eqb (lft h p) (Some old) then set_lft h p new else set_rgt h p new
  end.
(** [if (p != NULL) p->parent = v] (320-324, 396-397, 441-442, 760-764) *)
Definition set_par_if (h : aheap) (p : option Z) (v : option Z) : aheap :=
  match p with None => h | Some x => set_par h x v end.

(** avl.c:372-410 *)
Definition avl_rotate_right (h : aheap) (node : Z) : option aheap :=
  left <- lft h node ;;
  let parent := par h node in
  let h := set_par h left parent in
  let h := set_par h node (Some left) in
  let h := set_child h parent node (Some left) in
  let h := set_lft h node (rgt h left) in
  let h := set_rgt h left (Some node) in
  let h := set_par_if h (lft h node) (Some node) in
  let h := set_bal h node (bal h node + 1) in
  let h := if bal h left <? 0 then set_bal h node (bal h node - bal h left) else h in
  let h := set_bal h left (bal h left + 1) in
  Some (if bal h node >? 0 then set_bal h left (bal h left + bal h node) else h).

(** avl.c:417-455 *)
Definition avl_rotate_left (h : aheap) (node : Z) : option aheap :=
  right <- rgt h node ;;
  let parent := par h node in
  let h := set_par h right parent in
  let h := set_par h node (Some right) in
  let h := set_child h parent node (Some right) in
  let h := set_rgt h node (lft h right) in
  let h := set_lft h right (Some node) in
  let h := set_par_if h (rgt h node) (Some node) in
  let h := set_bal h node (bal h node - 1) in
  let h := if bal h right >? 0 then set_bal h node (bal h node - bal h right) else h in
  let h := set_bal h right (bal h right - 1) in
  Some (if bal h node <? 0 then set_bal h right (bal h right + bal h node) else h).

(** avl.c:462-507 *)
Fixpoint post_insert (fuel : nat) (h : aheap) (node : Z) : option aheap :=
  match fuel with
  | O => None
  | S f =>
    match par h node with
    | None => Some h
    | Some parent =>
      if ptr_eqb (Some node) (lft h parent) then
        let h := set_bal h parent (bal h parent - 1) in
        if bal h parent =? 0 then Some h
        else if bal h parent =? -1 then post_insert f h parent
        else if bal h node =? -1 then avl_rotate_right h parent
        else h <- avl_rotate_left h node ;;
             p <- par h node ;; pp <- par h p ;;
             avl_rotate_right h pp
      else
        let h := set_bal h parent (bal h parent + 1) in
        if bal h parent =? 0 then Some h
        else if bal h parent =? 1 then post_insert f h parent
        else if bal h node =? 1 then avl_rotate_left h parent
        else h <- avl_rotate_right h node ;;
             p <- par h node ;; pp <- par h p ;;
             avl_rotate_left h pp
    end
  end.

(** avl.c:516-533, 541-545 *)
Definition avl_insert_before (h : aheap) (pos node : Z) : option aheap :=
  l <- list_add_before (ls h) pos node ;;
  let h := set_ls h l in Some (set_cnt h (cnt h + 1)).
Definition avl_insert_after (h : aheap) (pos node : Z) : option aheap :=
  l <- list_add_after (ls h) pos node ;;
  let h := set_ls h l in Some (set_cnt h (cnt h + 1)).
Definition avl_remove_ (h : aheap) (node : Z) : option aheap :=
  l <- list_remove (ls h) node ;;
  let h := set_ls h l in Some (set_cnt h (cnt h - 1)).

(** avl.c:553-612 *)
Fixpoint avl_post_remove (fuel : nat) (h : aheap) (node : Z) : option aheap :=
  match fuel with
  | O => None
  | S f =>
    match par h node with
    | None => Some h
    | Some parent =>
      if ptr_eqb (Some node) (lft h parent) then
        let h := set_bal h parent (bal h parent + 1) in
        if bal h parent =? 0 then avl_post_remove f h parent
        else if bal h parent =? 1 then Some h
        else
          r <- rgt h parent ;;
          if bal h r =? 0 then avl_rotate_left h parent
          else if bal h r =? 1 then
            h <- avl_rotate_left h parent ;;
            p <- par h parent ;; avl_post_remove f h p
          else
            h <- avl_rotate_right h r ;;
            h <- avl_rotate_left h parent ;;
            p <- par h parent ;; avl_post_remove f h p
      else
        let h := set_bal h parent (bal h parent - 1) in
        if bal h parent =? 0 then avl_post_remove f h parent
        else if bal h parent =? -1 then Some h
        else
          l <- lft h parent ;;
          if bal h l =? 0 then avl_rotate_right h parent
          else if bal h l =? -1 then
            h <- avl_rotate_right h parent ;;
            p <- par h parent ;; avl_post_remove f h p
          else
            h <- avl_rotate_left h l ;;
            h <- avl_rotate_right h parent ;;
            p <- par h parent ;; avl_post_remove f h p
    end
  end.

(** avl.c:619-625 *)
Fixpoint avl_local_min (fuel : nat) (h : aheap) (node : Z) : option Z :=
  match fuel with
  | O => None
  | S f => match lft h node with None => Some node | Some l => avl_local_min f h l end
  end.

(** avl.c:643-777 *)
Fixpoint avl_remove_worker (fuel : nat) (h : aheap) (node : Z) : option aheap :=
  match fuel with
  | O => None
  | S f =>
    let parent := par h node in
    match lft h node, rgt h node with
    | None, None =>
      match parent with
      | None => Some (set_root h None)
      | Some parent =>
        if ptr_eqb (lft h parent) (Some node) then
          let h := set_lft h parent None in
          let h := set_bal h parent (bal h parent + 1) in
          if bal h parent =? 1 then Some h
          else if bal h parent =? 0 then avl_post_remove f h parent
          else
            r <- rgt h parent ;;
            if bal h r =? 0 then avl_rotate_left h parent
            else if bal h r =? 1 then
              h <- avl_rotate_left h parent ;;
              p <- par h parent ;; avl_post_remove f h p
            else
              h <- avl_rotate_right h r ;;
              h <- avl_rotate_left h parent ;;
              p <- par h parent ;; avl_post_remove f h p
        else
          let h := set_rgt h parent None in
          let h := set_bal h parent (bal h parent - 1) in
          if bal h parent =? -1 then Some h
          else if bal h parent =? 0 then avl_post_remove f h parent
          else
            l <- lft h parent ;;
            if bal h l =? 0 then avl_rotate_right h parent
            else if bal h l =? -1 then
              h <- avl_rotate_right h parent ;;
              p <- par h parent ;; avl_post_remove f h p
            else
              h <- avl_rotate_left h l ;;
              h <- avl_rotate_right h parent ;;
              p <- par h parent ;; avl_post_remove f h p
      end
    | None, Some r =>
      match parent with
      | None => Some (set_par (set_root h (Some r)) r None)
      | Some _ =>
        let h := set_par h r parent in
        let h := set_child h parent node (Some r) in
        avl_post_remove f h r
      end
    | Some l, None =>
      match parent with
      | None => Some (set_par (set_root h (Some l)) l None)
      | Some _ =>
        let h := set_par h l parent in
        let h := set_child h parent node (Some l) in
        avl_post_remove f h l
      end
    | Some _, Some r =>
      min <- avl_local_min f h r ;;
      h <- avl_remove_worker f h min ;;
      let parent := par h node in
      let h := set_bal h min (bal h node) in
      let h := set_par h min parent in
      let h := set_lft h min (lft h node) in
      let h := set_rgt h min (rgt h node) in
      let h := set_par_if h (lft h min) (Some min) in
      let h := set_par_if h (rgt h min) (Some min) in
      Some (set_child h parent node (Some min))
    end
  end.

Section Tree.
Context {K : Type} (comp : K -> K -> Z) (key : Z -> K) (allow_dups : bool) (head : Z).

(** avl.c:74-81; nodes not in any tree have cleared list pointers
    (oonf_class_malloc / calloc) *)
Definition avl_init : aheap :=
  AH (linit [head]) (fun _ => None) (fun _ => None) (fun _ => None) (fun _ => 0) (fun _ => false) None 0.

(** avl.c:343-365; result node and comparison *)
Fixpoint avl_find_rec (fuel : nat) (h : aheap) (node : Z) (k : K) : option (Z * Z) :=
  match fuel with
  | O => None
  | S f =>
    let diff := comp k (key node) in
    if diff <? 0 then match lft h node with Some l => avl_find_rec f h l k | None => Some (node, diff) end
    else if diff >? 0 then match rgt h node with Some r => avl_find_rec f h r k | None => Some (node, diff) end
    else Some (node, diff)
  end.

(** avl.c:90-101: outer option fault, inner NULL *)
Definition avl_find (fuel : nat) (h : aheap) (k : K) : option (option Z) :=
  match root h with
  | None => Some None
  | Some r => nd <- avl_find_rec fuel h r k ;; Some (if snd nd =? 0 then Some (fst nd) else None)
  end.

(** avl.c:122-129 *)
Fixpoint le_left (fuel : nat) (h : aheap) (k : K) (node diff : Z) : option (option (Z * Z)) :=
  match fuel with
  | O => None
  | S f =>
    if diff <? 0 then
      if list_is_first (ls h) head node then Some None
      else p <- pv (ls h) node ;; le_left f h k p (comp k (key p))
    else Some (Some (node, diff))
  end.
(** avl.c:131-142 *)
Fixpoint le_right (fuel : nat) (h : aheap) (k : K) (node next diff : Z) : option Z :=
  match fuel with
  | O => None
  | S f =>
    if diff >=? 0 then
      let node := next in
      if list_is_last (ls h) head node then Some node
      else n <- nx (ls h) node ;; le_right f h k node n (comp k (key n))
    else Some node
  end.
(** avl.c:111-143 *)
Definition avl_find_lessequal (fuel : nat) (h : aheap) (k : K) : option (option Z) :=
  match root h with
  | None => Some None
  | Some r =>
    nd <- avl_find_rec fuel h r k ;;
    res <- le_left fuel h k (fst nd) (snd nd) ;;
    match res with
    | None => Some None
    | Some (node, diff) => x <- le_right fuel h k node node diff ;; Some (Some x)
    end
  end.
(** avl.c:163-171 *)
Fixpoint ge_right (fuel : nat) (h : aheap) (k : K) (node diff : Z) : option (option (Z * Z)) :=
  match fuel with
  | O => None
  | S f =>
    if diff >? 0 then
      if list_is_last (ls h) head node then Some None
      else n <- nx (ls h) node ;; ge_right f h k n (comp k (key n))
    else Some (Some (node, diff))
  end.
(** avl.c:173-184 *)
Fixpoint ge_left (fuel : nat) (h : aheap) (k : K) (node next diff : Z) : option Z :=
  match fuel with
  | O => None
  | S f =>
    if diff <=? 0 then
      let node := next in
      if list_is_first (ls h) head node then Some node
      else p <- pv (ls h) node ;; ge_left f h k node p (comp k (key p))
    else Some node
  end.
(** avl.c:153-185 *)
Definition avl_find_greaterequal (fuel : nat) (h : aheap) (k : K) : option (option Z) :=
  match root h with
  | None => Some None
  | Some r =>
    nd <- avl_find_rec fuel h r k ;;
    res <- ge_right fuel h k (fst nd) (snd nd) ;;
    match res with
    | None => Some None
    | Some (node, diff) => x <- ge_left fuel h k node node diff ;; Some (Some x)
    end
  end.

(** avl.c:193-204 *)
Fixpoint avl_find_last (fuel : nat) (h : aheap) (last : Z) : option Z :=
  match fuel with
  | O => None
  | S f =>
    if list_is_last (ls h) head last then Some last
    else next <- nx (ls h) last ;;
         if fol h next then avl_find_last f h next else Some last
  end.

(** avl.c:213-282; result 0 or -1 *)
Definition avl_insert (fuel : nat) (h : aheap) (new : Z) : option (aheap * Z) :=
  let h := set_par h new None in
  let h := set_lft h new None in
  let h := set_rgt h new None in
  let h := set_bal h new 0 in
  let h := set_fol h new false in
  match root h with
  | None =>
    l <- list_add_head (ls h) head new ;;
    Some (set_cnt (set_root (set_ls h l) (Some new)) 1, 0)
  | Some r =>
    nd <- avl_find_rec fuel h r (key new) ;;
    let node := fst nd in
    let diff := comp (key new) (key node) in
    if diff =? 0 then
      if negb allow_dups then Some (h, -1)
      else
        let h := set_fol h new true in
        h <- avl_insert_after h node new ;; Some (h, 0)
    else
      let h := set_par h new (Some node) in
      if bal h node =? 1 then
        h <- avl_insert_before h node new ;;
        Some (set_lft (set_bal h node 0) node (Some new), 0)
      else if bal h node =? -1 then
        last <- avl_find_last fuel h node ;;
        h <- avl_insert_after h last new ;;
        Some (set_rgt (set_bal h node 0) node (Some new), 0)
      else if diff <? 0 then
        h <- avl_insert_before h node new ;;
        let h := set_lft (set_bal h node (-1)) node (Some new) in
        h <- post_insert fuel h node ;; Some (h, 0)
      else
        last <- avl_find_last fuel h node ;;
        h <- avl_insert_after h last new ;;
        let h := set_rgt (set_bal h node 1) node (Some new) in
        h <- post_insert fuel h node ;; Some (h, 0)
  end.

(** avl.c:289-332 *)
Definition avl_remove (fuel : nat) (h : aheap) (node : Z) : option aheap :=
  h <- (if negb (fol h node) then
          let worker := avl_remove_worker fuel h node in
          if allow_dups && negb (list_is_last (ls h) head node) then
            next <- nx (ls h) node ;;
            if fol h next then
              let h := set_fol h next false in
              let h := set_bal h next (bal h node) in
              let parent := par h node in
              let left := lft h node in
              let right := rgt h node in
              let h := set_par h next parent in
              let h := set_lft h next left in
              let h := set_rgt h next right in
              let h := set_child h parent node (Some next) in
              let h := set_par_if h left (Some next) in
              Some (set_par_if h right (Some next))
            else worker
          else worker
        else Some h) ;;
  avl_remove_ h node.

(** avl.h:161-192 *)
Definition avl_is_first (h : aheap) (node : Z) : bool := list_is_first (ls h) head node.
Definition avl_is_last (h : aheap) (node : Z) : bool := list_is_last (ls h) head node.
Definition avl_is_empty (h : aheap) : bool := cnt h =? 0.
Definition avl_is_node_added (h : aheap) (node : Z) : bool := list_is_node_added (ls h) node.

(** avl.h avl_for_each_element / _reverse: walk the list *)
Definition avl_iterate (fuel : nat) (h : aheap) : option (list Z) := walk_next fuel (ls h) head head.
Definition avl_iterate_reverse (fuel : nat) (h : aheap) : option (list Z) := walk_prev fuel (ls h) head head.

(** histories: the list of results of the insert calls is kept *)
Inductive aop := AIns (n : Z) | ARem (n : Z).
Definition astep (fuel : nat) (h : aheap) (o : aop) : option (aheap * list Z) :=
  match o with
  | AIns n => r <- avl_insert fuel h n ;; Some (fst r, [snd r])
  | ARem n => h <- avl_remove fuel h n ;; Some (h, [])
  end.
Fixpoint arun (fuel : nat) (h : aheap) (ops : list aop) : option (aheap * list Z) :=
  match ops with
  | [] => Some (h, [])
  | o :: ops => r <- astep fuel h o ;; r2 <- arun fuel (fst r) ops ;; Some (fst r2, snd r ++ snd r2)
  end.
End Tree.

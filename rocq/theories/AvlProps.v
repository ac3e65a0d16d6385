(** Theorems about src/libcommon/avl.c (properties C01-C04). *)
From Coq Require Import Permutation Sorted.
From Verif Require Import Base ListModel ListSpec ListProofs AvlModel AvlSpec AvlTreeProofs AvlRebalProofs AvlProofs CompModel CompProofs.

(** Every legal history (insert nodes that are not in the tree, remove nodes that
    are) runs without fault, every insert returns what the set of nodes in the
    tree says (-1 exactly for an equal key without allow_dups), and afterwards
    the tree shows exactly the nodes of that set, once each, in key order, in
    both directions, with the right count (modulo 2^32). *)
Theorem C01_tree_holds_exactly_the_inserted_nodes :
  forall (K : Type) (P : K -> Prop) (comp : K -> K -> Z) (key : Z -> K) (dups : bool) (head : Z) (ops : list aop) (fuel : nat),
  good_comp P comp -> set_legal comp key dups P head [] ops -> (S (length ops) < fuel)%nat ->
  exists h l,
    arun comp key dups head fuel (avl_init head) ops = Some (h, snd (set_run comp key dups [] ops)) /\
    avl_view head h l /\ NoDup l /\ Permutation l (fst (set_run comp key dups [] ops)) /\
    StronglySorted (fun x y => comp (key x) (key y) <= 0) l.
Proof.
  intros K P comp key dups head ops fuel GC LG HF.
  destruct (set_run_ok P comp key dups head GC fuel ops L (fun _ => []) (avl_init head) [] [] (init_ok P comp key dups head) (Permutation_refl _) LG)
    as (h & T & F & l & E & I & PE & SR & LE); [cbn [length]; lia|].
  exists h, l. split; [exact E|]. split; [apply list1_view; apply I|]. split; [apply (iv_nodup P comp key dups head T F h l I)|]. split; [exact PE|].
  apply (iv_le P comp key dups head GC T F h l I).
Qed.

(** The order among equal keys is determined as well: a history refines the
    sequence semantics of AvlSpec. *)
Theorem C01_tree_refines_sequence :
  forall (K : Type) (P : K -> Prop) (comp : K -> K -> Z) (key : Z -> K) (dups : bool) (head : Z) (ops : list aop) l rs (fuel : nat),
  good_comp P comp -> seq_run comp key dups P head [] ops l rs -> (S (length ops) < fuel)%nat ->
  exists h, arun comp key dups head fuel (avl_init head) ops = Some (h, rs) /\ avl_view head h l.
Proof.
  intros K P comp key dups head ops l rs fuel GC SR HF.
  destruct (run_ok P comp key dups head GC fuel [] ops l rs SR L (fun _ => []) (avl_init head) (init_ok P comp key dups head))
    as (h & T & F & E & I); [cbn [length]; lia|].
  exists h. split; [exact E|]. apply list1_view; apply I.
Qed.

(** After every legal history the heap holds a binary tree (child, parent and
    balance fields agree) that is height balanced and strictly sorted, contains one
    node of every key present, is not deeper than twice the logarithm of the
    number of elements, and a search needs no more steps than that. *)
Theorem C02_tree_balanced_and_shallow :
  forall (K : Type) (P : K -> Prop) (comp : K -> K -> Z) (key : Z -> K) (dups : bool) (head : Z) (ops : list aop) (fuel : nat),
  good_comp P comp -> set_legal comp key dups P head [] ops -> (S (length ops) < fuel)%nat ->
  exists h rs l T,
    arun comp key dups head fuel (avl_init head) ops = Some (h, rs) /\ avl_view head h l /\
    holds h T /\ balanced T /\ NoDup (inorder T) /\ incl (inorder T) l /\
    StronglySorted (fun x y => comp (key x) (key y) < 0) (inorder T) /\
    (forall x, In x l -> exists y, In y (inorder T) /\ comp (key x) (key y) = 0) /\
    2 ^ height T <= (zlen l + 1) ^ 2 /\
    (forall k steps, P k -> (zlen l + 1) ^ 2 < 2 ^ (Z.of_nat steps + 1) -> exists r, avl_find comp key steps h k = Some r).
Proof.
  intros K P comp key dups head ops fuel GC LG HF.
  destruct (set_run_ok P comp key dups head GC fuel ops L (fun _ => []) (avl_init head) [] [] (init_ok P comp key dups head) (Permutation_refl _) LG)
    as (h & T & F & l & E & I & PE & SR & LE); [cbn [length]; lia|].
  assert (SZ : 2 ^ height T <= (zlen l + 1) ^ 2).
  { etransitivity; [apply height_size, (iv_bal _ _ _ _ _ _ _ _ _ I)|]. rewrite size_inorder.
    apply Z.pow_le_mono_l. rewrite (iv_eq _ _ _ _ _ _ _ _ _ I). unfold zlen. pose proof (glist_len F (inorder T)). lia. }
  eexists. eexists. exists l, T. split; [exact E|]. split; [apply list1_view; apply I|].
  split; [apply I|]. split; [apply I|]. split; [eapply iv_nodupT; eauto|]. split; [intros x Hx; eapply iv_inT; eauto|]. split; [apply I|].
  split.
  { intros x Hx. pose proof Hx as Hx'. rewrite (iv_eq _ _ _ _ _ _ _ _ _ I) in Hx'. apply glist_inv in Hx' as (y & Hy & D). exists y. split; auto.
    destruct D as [->|D]; [apply (proj1 GC); eapply iv_P; eauto|]. eapply iv_fol2; eauto. }
  split; [exact SZ|].
  intros k steps Pk HS. eexists. apply (lookup_ok P comp key dups head GC T F h l steps k I Pk).
  apply Z.lt_succ_r. apply (Z.pow_lt_mono_r_iff 2); try lia.
Qed.

(** Lookups, in terms of what iteration shows. *)
Theorem C03_lookups_exact :
  forall (K : Type) (P : K -> Prop) (comp : K -> K -> Z) (key : Z -> K) (dups : bool) (head : Z) (ops : list aop) (fuel : nat),
  good_comp P comp -> set_legal comp key dups P head [] ops -> (S (length ops) < fuel)%nat ->
  exists h rs l,
    arun comp key dups head fuel (avl_init head) ops = Some (h, rs) /\ avl_view head h l /\
    forall k, P k ->
      avl_find comp key fuel h k = Some (first_with key (fun k' => comp k k' =? 0) l) /\
      avl_find_lessequal comp key head fuel h k = Some (last_with key (fun k' => 0 <=? comp k k') l) /\
      avl_find_greaterequal comp key head fuel h k = Some (first_with key (fun k' => comp k k' <=? 0) l).
Proof.
  intros K P comp key dups head ops fuel GC LG HF.
  destruct (set_run_ok P comp key dups head GC fuel ops L (fun _ => []) (avl_init head) [] [] (init_ok P comp key dups head) (Permutation_refl _) LG)
    as (h & T & F & l & E & I & PE & SR & LE); [cbn [length]; lia|]. cbn [length] in LE.
  eexists. eexists. exists l. split; [exact E|]. split; [apply list1_view; apply I|].
  intros k Pk. destruct (lookup_ok P comp key dups head GC T F h l fuel k I Pk) as (L1 & L2 & L3).
  split; [apply L1|split; [apply L2|apply L3]]; try lia.
  pose proof (height_len T). assert (LT : (length (inorder T) <= length l)%nat) by (rewrite (iv_eq _ _ _ _ _ _ _ _ _ I); apply glist_len). lia.
Qed.

(** Without allow_dups a node with an equal key is refused and nothing visible
    changes, not even the lookups. *)
Theorem C04_equal_key_refused_unchanged :
  forall (K : Type) (P : K -> Prop) (comp : K -> K -> Z) (key : Z -> K) (head : Z) (ops : list aop) (fuel : nat) (n x : Z),
  good_comp P comp -> set_legal comp key false P head [] ops -> (S (length ops) < fuel)%nat ->
  n <> head -> P (key n) -> let s := fst (set_run comp key false [] ops) in ~ In n s -> In x s -> comp (key n) (key x) = 0 ->
  exists h rs l h',
    arun comp key false head fuel (avl_init head) ops = Some (h, rs) /\ avl_view head h l /\
    avl_insert comp key false head fuel h n = Some (h', -1) /\ avl_view head h' l /\
    forall k, P k -> avl_find comp key fuel h' k = avl_find comp key fuel h k.
Proof.
  intros K P comp key head ops fuel n x GC LG HF NH PN s Hn Hx EQ.
  destruct (set_run_ok P comp key false head GC fuel ops L (fun _ => []) (avl_init head) [] [] (init_ok P comp key false head) (Permutation_refl _) LG)
    as (h & T & F & l & E & I & PE & SR & LE); [cbn [length]; lia|]. cbn [length] in LE.
  assert (NI : ~ In n l) by (intros X; apply Hn; eapply Permutation_in; eauto).
  pose proof (insert_ok P comp key false head GC T F h l fuel n I NH NI PN ltac:(lia)) as IO.
  destruct (seq_insert comp key false n l) as [l'|] eqn:SI.
  { exfalso. apply (seq_insert_some P comp key false GC n l l' PN (iv_P _ _ _ _ _ _ _ _ _ I)  (iv_le P comp key false head GC T F h l I) SI eq_refl x); auto.
    eapply Permutation_in; [symmetry; exact PE|exact Hx]. }
  destruct IO as (h' & E' & I'). eexists. eexists. exists l, h'. split; [exact E|]. split; [apply list1_view; apply I|]. split; [exact E'|]. split; [apply list1_view; apply I'|].
  intros k Pk. pose proof (height_len T). assert (LT : (length (inorder T) <= length l)%nat) by (rewrite (iv_eq _ _ _ _ _ _ _ _ _ I); apply glist_len).
  rewrite (proj1 (lookup_ok P comp key false head GC T F h l fuel k I Pk)) by lia.
  apply (lookup_ok P comp key false head GC T F h' l fuel k I' Pk). lia.
Qed.

(** With allow_dups the new node is stored directly behind the first node of its
    key. *)
Theorem C04_equal_key_stored_behind_first :
  forall (K : Type) (P : K -> Prop) (comp : K -> K -> Z) (key : Z -> K) (head : Z) (ops : list aop) (fuel : nat) (n x : Z),
  good_comp P comp -> set_legal comp key true P head [] ops -> (S (length ops) < fuel)%nat ->
  n <> head -> P (key n) -> let s := fst (set_run comp key true [] ops) in ~ In n s -> In x s -> comp (key n) (key x) = 0 ->
  exists h rs A y B h',
    arun comp key true head fuel (avl_init head) ops = Some (h, rs) /\ avl_view head h (A ++ y :: B) /\
    comp (key n) (key y) = 0 /\ (forall z, In z A -> comp (key n) (key z) > 0) /\
    avl_insert comp key true head fuel h n = Some (h', 0) /\ avl_view head h' (A ++ y :: n :: B).
Proof.
  intros K P comp key head ops fuel n x GC LG HF NH PN s Hn Hx EQ.
  destruct (set_run_ok P comp key true head GC fuel ops L (fun _ => []) (avl_init head) [] [] (init_ok P comp key true head) (Permutation_refl _) LG)
    as (h & T & F & l & E & I & PE & SR & LE); [cbn [length]; lia|]. cbn [length] in LE.
  assert (NI : ~ In n l) by (intros X; apply Hn; eapply Permutation_in; eauto).
  pose proof (insert_ok P comp key true head GC T F h l fuel n I NH NI PN ltac:(lia)) as IO.
  assert (Hxl : In x l) by (eapply Permutation_in; [symmetry; exact PE|exact Hx]).
  assert (SP : forall l, StronglySorted (fun x y => comp (key x) (key y) <= 0) l -> (forall z, In z l -> P (key z)) -> In x l ->
     exists A y B, l = A ++ y :: B /\ comp (key n) (key y) = 0 /\ (forall z, In z A -> comp (key n) (key z) > 0) /\ seq_insert comp key true n l = Some (A ++ y :: n :: B)).
  { clear -GC EQ PN. induction l as [|z l IH]; intros SS PL Hx; [destruct Hx|]. inversion_clear SS. rewrite Forall_forall in H0.
    assert (Pz : P (key z)) by (apply PL; left; auto). assert (Px : P (key x)) by (apply PL; auto).
    assert (ZX : comp (key n) (key z) >= 0).
    { destruct Hx as [->|Hx]; [lia|]. specialize (H0 x Hx). destruct (Z_lt_le_dec (comp (key n) (key z)) 0); [|lia]. exfalso.
      pose proof (proj2 (proj2 GC) (key n) (key z) (key x) PN Pz Px). lia. }
    cbn [seq_insert]. destruct (Z.ltb_spec (comp (key n) (key z)) 0); [lia|].
    destruct (Z.eqb_spec (comp (key n) (key z)) 0) as [E0|N0].
    - exists [], z, l. split; [reflexivity|]. split; [auto|]. split; [intros w []|reflexivity].
    - destruct Hx as [->|Hx]; [congruence|]. destruct (IH H ltac:(intros; apply PL; right; auto) Hx) as (A & y & B & -> & E1 & E2 & E3).
      exists (z :: A), y, B. split; [reflexivity|]. split; [auto|]. split; [intros w [<-|Hw]; auto; lia|]. rewrite E3. reflexivity. }
  destruct (SP l (iv_le P comp key true head GC T F h l I) (iv_P _ _ _ _ _ _ _ _ _ I) Hxl) as (A & y & B & -> & E1 & E2 & E3).
  rewrite E3 in IO. destruct IO as (h' & T' & F' & E' & I').
  eexists. eexists. exists A, y, B, h'. split; [exact E|]. split; [apply list1_view; apply I|]. split; [auto|]. split; [auto|]. split; [exact E'|]. apply list1_view; apply I'.
Qed.

(** Hence iteration does not follow the insertion order of equal keys. *)
Theorem C04_equal_keys_not_in_insertion_order : exists h,
  arun comp_int (fun _ => 7) true 0 9 (avl_init 0) [AIns 1; AIns 2; AIns 3; AIns 4] = Some (h, [0; 0; 0; 0]) /\
  avl_iterate 0 9 h = Some [1; 4; 3; 2].
Proof. eexists. split; vm_compute; reflexivity. Qed.

(** Nodes 1..30 carry key node mod 10; a history with rotations, a refused insert
    (without dups), removal of tree nodes, of further nodes of a key and of the root. *)
Definition C01_key (n : Z) : Z := n mod 10.
Definition C01_ops := [AIns 1; AIns 2; AIns 3; AIns 4; AIns 5; AIns 6; AIns 7; AIns 12; AIns 22; ARem 2; AIns 9; AIns 8; ARem 4; ARem 22; AIns 15; ARem 1].
Example C01_ex :
  good_comp (fun _ => True) comp_int /\ set_legal comp_int C01_key true (fun _ => True) 0 [] C01_ops /\
  match arun comp_int C01_key true 0 30 (avl_init 0) C01_ops with
  | Some (h, rs) => (avl_iterate 0 30 h, avl_iterate_reverse 0 30 h, cnt h) = (Some [12; 3; 5; 15; 6; 7; 8; 9], Some [9; 8; 7; 6; 15; 5; 3; 12], 8)
  | None => False
  end.
Proof.
  split; [apply comp_int_good|]. split; [|vm_compute; reflexivity].
  vm_compute. intuition discriminate.
Qed.

(** The same history: shape of the tree and depth. *)
Definition C02_tree := N (N L 12 1 (N L 3 0 L)) 5 1 (N (N L 6 1 (N L 7 0 L)) 8 (-1) (N L 9 0 L)).
Example C02_ex :
  good_comp (fun _ => True) comp_int /\ set_legal comp_int C01_key true (fun _ => True) 0 [] C01_ops /\
  match arun comp_int C01_key true 0 30 (avl_init 0) C01_ops with
  | Some (h, _) => holds h C02_tree /\ balanced C02_tree /\ avl_find comp_int C01_key 4 h 7 = Some (Some 7) /\ avl_find comp_int C01_key 3 h 7 = None
  | None => False
  end.
Proof.
  split; [apply comp_int_good|]. split; [vm_compute; intuition discriminate|].
  vm_compute. intuition discriminate.
Qed.
Example C03_ex :
  match arun comp_int C01_key true 0 30 (avl_init 0) C01_ops with
  | Some (h, _) =>
      avl_find comp_int C01_key 30 h 5 = Some (Some 5) /\ avl_find comp_int C01_key 30 h 4 = Some None /\
      avl_find_lessequal comp_int C01_key 0 30 h 5 = Some (Some 15) /\ avl_find_lessequal comp_int C01_key 0 30 h 4 = Some (Some 3) /\
      avl_find_lessequal comp_int C01_key 0 30 h 1 = Some None /\
      avl_find_greaterequal comp_int C01_key 0 30 h 5 = Some (Some 5) /\ avl_find_greaterequal comp_int C01_key 0 30 h 4 = Some (Some 5) /\
      avl_find_greaterequal comp_int C01_key 0 30 h 10 = Some None
  | None => False
  end.
Proof. vm_compute. intuition reflexivity. Qed.
(** Without duplicates: 12 is refused while 2 is in the tree, accepted after its removal. *)
Definition C04_ops := [AIns 5; AIns 2; AIns 8; AIns 12; ARem 2; AIns 12; AIns 3].
Example C04_ex :
  set_legal comp_int C01_key false (fun _ => True) 0 [] C04_ops /\
  set_run comp_int C01_key false [] C04_ops = ([3; 12; 8; 5], [0; 0; 0; -1; 0; 0]) /\
  match arun comp_int C01_key false 0 30 (avl_init 0) C04_ops with
  | Some (h, rs) => rs = [0; 0; 0; -1; 0; 0] /\ avl_iterate 0 30 h = Some [12; 3; 5; 8] /\
      match avl_insert comp_int C01_key false 0 30 h 18 with
      | Some (h', r) => r = -1 /\ avl_iterate 0 30 h' = Some [12; 3; 5; 8]
      | None => False
      end
  | None => False
  end.
Proof. split; [vm_compute; intuition discriminate|]. vm_compute. intuition reflexivity. Qed.

Print Assumptions C01_tree_holds_exactly_the_inserted_nodes.
Print Assumptions C01_tree_refines_sequence.
Print Assumptions C02_tree_balanced_and_shallow.
Print Assumptions C03_lookups_exact.
Print Assumptions C04_equal_key_refused_unchanged.
Print Assumptions C04_equal_key_stored_behind_first.
Print Assumptions C04_equal_keys_not_in_insertion_order.

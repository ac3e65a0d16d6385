(** Theorems about include/oonf/libcommon/list.h (property C05). *)
From Verif Require Import Base ListModel ListSpec ListProofs.

(** Every history of calls that respects the callers' duty ([sok]) runs without
    touching a NULL pointer, and afterwards every observation of the heap agrees
    with the sequences: walking forward, walking backward (any sufficient fuel;
    the walk terminates), emptiness, first, last, membership. *)
Theorem C05_list_refines_sequences : forall H ops A',
  NoDup H -> sruns H (fun _ => []) ops A' ->
  exists h, lrun (linit H) ops = Some h /\
    (forall hd fuel, In hd H -> (length (A' hd) < fuel)%nat ->
       walk_next fuel h hd hd = Some (A' hd) /\ walk_prev fuel h hd hd = Some (rev (A' hd))) /\
    (forall hd, In hd H -> (list_is_empty h hd = true <-> A' hd = [])) /\
    (forall hd x, In hd H -> x <> hd -> (list_is_first h hd x = true <-> exists l, A' hd = x :: l)) /\
    (forall hd x, In hd H -> x <> hd -> (list_is_last h hd x = true <-> exists l, A' hd = l ++ [x])) /\
    (forall x, ~ In x H -> (list_is_node_added h x = true <-> placed H A' x)).
Proof.
  intros H ops A' ND R. destruct (lists_run H ops _ _ _ (linit_inv H ND) R) as (h & E & INV).
  exists h. split; [exact E|]. exact (lists_inv_view H A' h INV).
Qed.

(** A call that names only nodes of one list leaves every other list alone. *)
Theorem C05_other_lists_untouched : forall H ops A' o hd,
  NoDup H -> sruns H (fun _ => []) ops A' -> sok H A' o -> In hd H ->
  match o with
  | AddHead a _ | AddTail a _ => hd <> a
  | AddBefore p _ | AddAfter p _ => ~ In p (A' hd)
  | Remove n => ~ In n (A' hd)
  | Merge a b => hd <> a /\ hd <> b
  end ->
  exists h h', lrun (linit H) ops = Some h /\ lstep h o = Some h' /\
    forall fuel, (length (A' hd) < fuel)%nat ->
      walk_next fuel h' hd hd = Some (A' hd) /\ walk_next fuel h hd hd = Some (A' hd).
Proof.
  intros H ops A' o hd ND R OK Hh OTHER.
  destruct (lists_run H ops _ _ _ (linit_inv H ND) R) as (h & E & INV).
  destruct (lists_step H A' h o INV OK) as (h' & E' & INV').
  exists h, h'. split; [exact E|]. split; [exact E'|]. intros fuel HF.
  assert (K : sstep A' o hd = A' hd).
  { destruct o; cbn [sstep]; unfold upd.
    - destruct (Z.eqb_spec hd hd0); congruence.
    - destruct (Z.eqb_spec hd hd0); congruence.
    - now apply ins_before_none.
    - now apply ins_after_none.
    - now apply del_none.
    - destruct OTHER. destruct (Z.eqb_spec hd hd2); [congruence|]. destruct (Z.eqb_spec hd hd1); congruence. }
  split.
  - rewrite <- K. apply (lists_inv_view _ _ _ INV'); auto. now rewrite K.
  - apply (lists_inv_view _ _ _ INV); auto.
Qed.

(** Two heads, four nodes: add, insert before/after, remove, merge. *)
Definition C05_ops := [AddHead 1 10; AddTail 1 11; AddBefore 11 12; AddTail 2 13; AddAfter 13 14; Remove 11; Merge 1 2; AddHead 2 11].
Example C05_ex :
  NoDup [1; 2] /\ sruns [1; 2] (fun _ => []) C05_ops (fold_left sstep C05_ops (fun _ => [])) /\
  match lrun (linit [1; 2]) C05_ops with
  | Some h => (walk_next 9 h 1 1, walk_prev 9 h 1 1, walk_next 9 h 2 2) = (Some [10; 12; 13; 14], Some [14; 13; 12; 10], Some [11])
  | None => False
  end.
Proof.
  split; [repeat constructor; cbn; lia|]. split; [|vm_compute; reflexivity].
  assert (F : forall A n, ~ In n [1; 2] -> ~ In n (A 1) -> ~ In n (A 2) -> fresh [1; 2] A n).
  { intros A n h0 h1 h2. split; auto. intros hd [<-|[<-|[]]]; auto. }
  cbn [C05_ops sruns sok]. 
  repeat match goal with
  | |- _ /\ _ => split
  | |- fresh _ _ _ => apply F; cbn; lia
  | |- placed _ _ 13 => exists 2; cbn; lia
  | |- placed _ _ _ => exists 1; cbn; lia
  | |- In _ _ => cbn; lia
  | |- _ = _ => reflexivity
  | |- _ <> _ => lia
  end.
Qed.

Print Assumptions C05_list_refines_sequences.
Print Assumptions C05_other_lists_untouched.

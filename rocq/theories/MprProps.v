(** Properties C48 and C49: MPR selection. *)
From Verif Require Import Base MprModel MprSpec MprProofs MprCover.

(** C48, flooding MPRs.  If no neighbor has two links on the interface, then
    every two-hop address with a usable path is either also the address of a
    direct neighbor which is not farther away, or one of the selected links
    reaches it with the smallest two-hop cost.  Links to neighbors which are
    always willing are selected, and only links which may relay are. *)
Theorem C48_flooding_mprs_cover : forall i db,
  links_ok db -> links_small db -> single_links i db ->
  exists res, flooding_mprs i db = Some res /\
    (forall l, In l res -> In l db /\ relay_link i l) /\
    (forall l, In l db -> relay_link i l -> ml_will l = WILL_ALWAYS -> In l res) /\
    (forall y c, cheapest (flood_path i db) y c ->
       (exists d, flood_direct i db y d /\ d <= c) \/
       exists l, In l res /\ relay_link i l /\ via_link l y c).
Proof.
  intros i db OK SM SL. destruct (flooding_selection i db OK SM) as (res & E & A & B & C).
  exists res. split; [exact E|]. split; [|split; auto].
  intros l Hl. apply A in Hl as (Hl & Il & x & Hx & Rx & Ex). split; [exact Hl|].
  apply A in Hx as (Hx & _). rewrite <- (SL x l Hx Hl (proj1 Rx) Il Ex). exact Rx.
Qed.

(** Two links of one neighbor on one interface: the graph remembers the first
    one only.  Here the second link is the only way to the address 20, and no
    link is selected at all.  Missing from C48 is nothing else for flooding. *)
Definition two_links_db : list link :=
  let n := Neigh 1 10 [10] 2 1 7 [] in
  [Link 1 0 n 1 true 7 []; Link 2 0 n 1 true 7 [L2 20 1 1]].
Theorem C48_two_links_refuted : exists i db y c res,
  links_ok db /\ links_small db /\ flooding_mprs i db = Some res /\
  cheapest (flood_path i db) y c /\ ~ (exists d, flood_direct i db y d) /\
  ~ exists l, In l res /\ relay_link i l /\ via_link l y c.
Proof.
  exists 0, two_links_db, 20, 2, []. split; [|split; [reflexivity|split; [vm_compute; reflexivity|split; [|split]]]].
  - split.
    + repeat constructor; cbn; unfold METRIC_INFINITE; try lia; intros [].
    + intros a b [<-|[<-|[]]] [<-|[<-|[]]]; reflexivity.
  - split.
    + exists (nth 1 two_links_db (hd (Link 0 0 (Neigh 0 0 [] 0 0 0 []) 0 false 0 []) two_links_db)).
      split; [right; now left|]. split; [repeat split; cbn; unfold METRIC_MAX, WILL_NEVER; lia|].
      exists (L2 20 1 1). repeat split; [now left|cbn; unfold METRIC_MAX; lia].
    + intros c' (l & [<-|[<-|[]]] & _ & h & Hh & _ & _ & Ec); cbn in Hh, Ec; [destruct Hh|].
      destruct Hh as [<-|[]]. cbn in Ec. lia.
  - intros (d & l & Hl & _ & Ha & _). destruct Hl as [<-|[<-|[]]]; cbn in Ha; destruct Ha as [Ha|[]]; lia.
  - intros (l & [] & _).
Qed.

(** C48, routing MPRs.  Partial: neighbors whose willingness is 15 are
    excluded (see C49_routing_always_refuted), and all links to a neighbor have
    to report the same metric for a two-hop address. *)
Theorem C48_routing_mprs_cover_partial : forall db,
  neighs_ok db -> neighs_small db -> (forall n, In n db -> same_metrics n) ->
  (forall n, In n db -> relay_neigh n -> mn_will n <> WILL_ALWAYS) ->
  exists res, routing_mprs db = Some res /\
    (forall n, In n res -> In n db /\ relay_neigh n) /\
    (forall y c, cheapest (route_path db) y c ->
       (exists d, route_direct db y d /\ d <= c) \/
       exists n, In n res /\ via_neigh n y c).
Proof. exact routing_selection. Qed.

(** A neighbor with two links which report different metrics for the two-hop
    address 20: the first link decides (cost 101), although the second one is
    cheaper (2).  The other neighbor reaches it with 51 and is selected. *)
Definition metric_db : list neigh :=
  [Neigh 1 10 [10] 2 1 7 [[L2 20 100 100]; [L2 20 1 1]];
   Neigh 2 11 [11] 1 1 7 [[L2 20 50 50]]].
Theorem C48_routing_two_links_refuted : exists db y c res,
  neighs_ok db /\ neighs_small db /\ routing_mprs db = Some res /\
  cheapest (route_path db) y c /\ ~ (exists d, route_direct db y d) /\
  ~ exists n, In n res /\ via_neigh n y c.
Proof.
  exists metric_db, 20, 2, [Neigh 2 11 [11] 1 1 7 [[L2 20 50 50]]].
  split; [|split; [reflexivity|split; [vm_compute; reflexivity|split; [|split]]]].
  - repeat split; repeat constructor; cbn; unfold METRIC_INFINITE; try lia.
  - split.
    + exists (Neigh 1 10 [10] 2 1 7 [[L2 20 100 100]; [L2 20 1 1]]). split; [now left|].
      split; [repeat split; cbn; unfold METRIC_MAX, WILL_NEVER; lia|].
      exists [L2 20 1 1], (L2 20 1 1). repeat split; [right; now left|now left|cbn; unfold METRIC_MAX; lia].
    + intros c' (n & [<-|[<-|[]]] & _ & hs & h & Hs & Hh & _ & _ & ->); cbn in Hs.
      * destruct Hs as [<-|[<-|[]]]; destruct Hh as [<-|[]]; cbn; lia.
      * destruct Hs as [<-|[]]; destruct Hh as [<-|[]]; cbn; lia.
  - intros (d & n & [<-|[<-|[]]] & _ & Ha & _); cbn in Ha; destruct Ha as [Ha|[]]; lia.
  - intros (n & [<-|[]] & hs & h & Hs & Hh & _ & _ & Ec); cbn in Hs. destruct Hs as [<-|[]].
    destruct Hh as [<-|[]]. cbn in Ec. lia.
Qed.

(** C49, flooding MPRs: the selection ends, stays within its table, follows no
    NULL link, and passes its own validation, for every database. *)
Theorem C49_flooding_no_fault : forall i db,
  links_ok db -> links_small db -> flooding_mprs i db <> None.
Proof.
  intros i db OK SM. destruct (flooding_selection i db OK SM) as (res & -> & _). discriminate.
Qed.

(** C49, routing MPRs.  Partial for the reasons of C48_routing. *)
Theorem C49_routing_no_fault_partial : forall db,
  neighs_ok db -> neighs_small db -> (forall n, In n db -> same_metrics n) ->
  (forall n, In n db -> relay_neigh n -> mn_will n <> WILL_ALWAYS) ->
  routing_mprs db <> None.
Proof.
  intros db A B C D. destruct (routing_selection db A B C D) as (res & -> & _). discriminate.
Qed.

(** A neighbor which announces the routing willingness 15 makes the selection
    dereference a NULL link, whatever else is in the database. *)
Lemma mfold_fault_app {A B} (f : B -> A -> M B) l : forall b s x,
  In x l -> (forall b s, f b x s = None) -> mfold f l b s = None.
Proof.
  induction l as [|a l IH]; intros b s x I F; [destruct I|]. cbn [mfold]. unfold bind.
  destruct I as [->|I]; [now rewrite F|]. destruct (f b a s) as [[b' s']|]; [|reflexivity]. now apply (IH b' s' x).
Qed.
Theorem C49_routing_always_crashes : forall db n,
  NoDup (map mn_orig db) -> In n db -> relay_neigh n -> mn_will n = WILL_ALWAYS -> routing_mprs db = None.
Proof.
  intros db n N Hn Rn Wn. destruct (route_n1_all db n Hn Rn) as (x & Hx & Ea).
  unfold routing_mprs. cbv zeta. unfold bind at 1. unfold mpr_calculate. cbv zeta.
  destruct (number_n1_all (route_n1 db) 0 x Hx) as (x' & Hx' & Ea' & En' & El').
  set (x1 := number_n1 0 (route_n1 db)) in *. set (x2 := number_n2 _ _ _). set (s0 := GState _ _ _ _). clearbody s0 x2.
  unfold bind at 1. destruct (calculate_n routing x1 x2 s0) as [[r s1]|]; [|reflexivity].
  unfold bind at 1. unfold process_will_always.
  rewrite (mfold_fault_app _ x1 tt s1 x' Hx'); [reflexivity|].
  intros b s. destruct (route_n1_In db x Hx) as (k & Hk & _ & Ek & Enk).
  assert (H : k = n) by (apply (NoDup_map_inj mn_orig db); auto; congruence). rewrite H in Enk.
  unfold bind, lift. cbn [m_will routing]. unfold route_will. rewrite En', Enk, Wn. cbn.
  assert (L : n1_link x = None).
  { clear - Hx. unfold route_n1 in Hx.
    enough (G : forall ls set, (forall z, In z set -> n1_link z = None) ->
      In x (fold_left (fun set n => if allowed_neigh n then add_n1 n None 0 set else set) ls set) -> n1_link x = None)
      by (apply (G db []); [intros z []|exact Hx]).
    induction ls as [|n ls IH]; intros set Hs; cbn [fold_left]; [apply Hs|]. apply IH. intros z Hz.
    destruct (allowed_neigh n); [|auto]. unfold add_n1 in Hz. apply set_add_In in Hz as [->|Hz]; auto. }
  rewrite El', L. reflexivity.
Qed.
Definition always_db : list neigh := [Neigh 1 10 [10] 1 1 15 []; Neigh 2 11 [11] 1 1 7 [[L2 20 5 5]]].
Example C49_routing_always_ex :
  NoDup (map mn_orig always_db) /\ In (hd (Neigh 0 0 [] 0 0 0 []) always_db) always_db /\
  relay_neigh (hd (Neigh 0 0 [] 0 0 0 []) always_db) /\ routing_mprs always_db = None.
Proof.
  split; [|split; [now left|split; [|vm_compute; reflexivity]]].
  - repeat constructor; cbn; lia.
  - split; [|split]; cbn; unfold METRIC_MAX, WILL_NEVER; lia.
Qed.

Theorem C49_routing_always_refuted : exists db,
  neighs_ok db /\ neighs_small db /\ (forall n, In n db -> same_metrics n) /\ routing_mprs db = None.
Proof.
  exists always_db. split; [|split; [reflexivity|split; [|vm_compute; reflexivity]]].
  - repeat split; repeat constructor; cbn; unfold METRIC_INFINITE; lia.
  - intros n Hn hs h hs' h' A B C D E. destruct Hn as [<-|[<-|[]]]; cbn in A, C; [destruct A|].
    destruct A as [<-|[]]; destruct C as [<-|[]]; destruct B as [<-|[]]; destruct D as [<-|[]]; reflexivity.
Qed.

(** A neighbor with two links, of which the first one reports an infinite
    metric for a two-hop address: the assertion possible_mprs > 0 fails. *)
Theorem C49_routing_metric_refuted : exists db,
  neighs_ok db /\ neighs_small db /\ (forall n, In n db -> mn_will n <> WILL_ALWAYS) /\ routing_mprs db = None.
Proof.
  exists [Neigh 1 10 [10] 2 1 7 [[L2 20 METRIC_INFINITE 1]; [L2 20 1 1]]].
  split; [|split; [reflexivity|split; [|vm_compute; reflexivity]]].
  - repeat split; repeat constructor; cbn; unfold METRIC_INFINITE; try lia; intros [].
  - intros n [<-|[]]; cbn; unfold WILL_ALWAYS; lia.
Qed.

(** Databases which meet the hypotheses. *)
Definition ex_links : list link :=
  let a := Neigh 1 10 [10; 30] 1 3 7 [] in
  let b := Neigh 2 11 [11] 1 1 7 [] in
  let c := Neigh 3 12 [12] 1 1 15 [] in
  [Link 1 0 a 3 true 7 [L2 20 2 2; L2 21 9 9; L2 11 1 1];
   Link 2 0 b 1 true 7 [L2 20 4 4; L2 21 4 4; L2 22 METRIC_INFINITE METRIC_INFINITE];
   Link 3 0 c 1 true 15 [L2 20 9 9];
   Link 4 1 a 1 true 7 [L2 20 1 1]].
Example C48_flooding_ex : links_ok ex_links /\ links_small ex_links /\ single_links 0 ex_links /\
  cheapest (flood_path 0 ex_links) 21 5 /\
  match flooding_mprs 0 ex_links with Some res => map ml_id res = [2; 3] | None => False end.
Proof.
  split; [|split; [reflexivity|split; [|split; [|vm_compute; reflexivity]]]].
  - split; [|intros a b [<-|[<-|[<-|[<-|[]]]]] [<-|[<-|[<-|[<-|[]]]]]; cbn; try reflexivity; intros; lia].
    repeat constructor; cbn; unfold METRIC_INFINITE; try lia.
  - intros a b [<-|[<-|[<-|[<-|[]]]]] [<-|[<-|[<-|[<-|[]]]]]; cbn; try reflexivity; intros; lia.
  - split.
    + eexists. split; [right; left; reflexivity|]. split; [repeat split; cbn; unfold METRIC_MAX, WILL_NEVER; lia|].
      exists (L2 21 4 4). repeat split; [right; now left|cbn; unfold METRIC_MAX; lia].
    + intros c' (l & Hl & Rl & h & Hh & Ey & _ & ->).
      destruct Hl as [<-|[<-|[<-|[<-|[]]]]]; cbn in *;
        repeat (destruct Hh as [<-|Hh]; [cbn in *; lia|]); destruct Hh.
Qed.
Definition ex_neighs : list neigh :=
  [Neigh 1 10 [10; 30] 2 3 7 [[L2 20 2 2; L2 21 9 9]; [L2 20 2 2; L2 22 1 1]];
   Neigh 2 11 [11] 1 1 7 [[L2 20 4 4; L2 21 4 4]]].
Example C48_routing_ex : neighs_ok ex_neighs /\ neighs_small ex_neighs /\
  (forall n, In n ex_neighs -> same_metrics n) /\
  (forall n, In n ex_neighs -> relay_neigh n -> mn_will n <> WILL_ALWAYS) /\
  match routing_mprs ex_neighs with Some res => map mn_id res = [1; 2] | None => False end.
Proof.
  split; [|split; [reflexivity|split; [|split; [|vm_compute; reflexivity]]]].
  - repeat split; repeat constructor; cbn; unfold METRIC_INFINITE; lia.
  - intros n Hn hs h hs' h' A B C D E. destruct Hn as [<-|[<-|[]]]; cbn in A, C.
    + destruct A as [<-|[<-|[]]]; destruct C as [<-|[<-|[]]];
      destruct B as [<-|[<-|[]]]; destruct D as [<-|[<-|[]]]; cbn in E |- *; lia.
    + destruct A as [<-|[]]; destruct C as [<-|[]];
      destruct B as [<-|[<-|[]]]; destruct D as [<-|[<-|[]]]; cbn in E |- *; lia.
  - intros n [<-|[<-|[]]] _; cbn; unfold WILL_ALWAYS; lia.
Qed.

Print Assumptions C48_flooding_mprs_cover.
Print Assumptions C48_two_links_refuted.
Print Assumptions C48_routing_mprs_cover_partial.
Print Assumptions C48_routing_two_links_refuted.
Print Assumptions C49_flooding_no_fault.
Print Assumptions C49_routing_no_fault_partial.
Print Assumptions C49_routing_always_crashes.
Print Assumptions C49_routing_always_refuted.
Print Assumptions C49_routing_metric_refuted.

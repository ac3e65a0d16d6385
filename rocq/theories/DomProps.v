(** Properties C73-C76: domain data of NHDP (willingness, MPR selection, neighbor
    metrics, metric exchange). *)
From Verif Require Import Base CodecModel CodecSpec DomModel DomSpec DomProofs DomMetric DomLink.
From Coq Require Import Permutation.

(** The TLVs of a HELLO can always be written, and a HELLO whose TLVs are not
    empty is always read without an access outside of an array. *)
Theorem C73_hello_written : forall ds fw nd l, doms_ok ds -> 0 <= fw <= 15 -> zlen nd = 4 ->
  exists ty will mpr, hello_tlvs ds fw = Some (ty, will) /\ hello_mpr ds nd l = Some (Some mpr) /\
    1 <= zlen will /\ zlen mpr = 1.
Proof.
  intros ds fw nd l O F L. destruct (hello_tlvs_ok ds fw O F) as (will & H1 & H2 & _).
  destruct (hello_mpr_ok ds nd l O L) as (b & H3 & _). eexists _, will, [b]. split; [exact H1|]. split; [exact H3|].
  split; [|reflexivity]. destruct O as ((? & ?) & _). lia.
Qed.
Theorem C73_hello_read : forall g ni li n l ty will mpr tlvs, at_link g ni li n l ->
  (forall v, will = Some v -> 1 <= zlen v) -> (forall v, mpr = Some v -> 1 <= zlen v) ->
  exists g' n' l', receive g ni li ty will mpr tlvs = Some g' /\ at_link g' ni li n' l' /\ same_rest g g' ni li n n'.
Proof.
  intros g ni li n l ty will mpr tlvs A Hw Hm. destruct (receive_any g ni li n l ty will mpr tlvs A Hw Hm) as (g' & n' & l' & R1 & R2 & R3 & _).
  eauto 8.
Qed.

(** ** C73: willingness *)

(** In full: the willingness of a neighbor that receives a HELLO is the one of the
    sender, for every domain which the nodes have in common, and never for the
    others.  Missing: domains in another order ([agree]); refuted below. *)
Theorem C73_willingness_partial : forall g ni li n l ds fw nd sl ty will mpr tlvs,
  at_link g ni li n l -> doms_ok ds -> 0 <= fw <= 15 -> agree ds (g_doms g) -> zlen nd = 4 ->
  hello_tlvs ds fw = Some (ty, will) -> hello_mpr ds nd sl = Some mpr ->
  exists g' n' l', receive g ni li ty (Some will) mpr tlvs = Some g' /\ at_link g' ni li n' l' /\
    same_rest g g' ni li n n' /\ k_fwill l' = fw /\
    forall i d, zget (g_doms g) i = Some d -> exists y, zget (nb_data n') i = Some y /\ will_for ds (d_ext d) (n_will y).
Proof.
  intros g ni li n l ds fw nd sl ty will mpr tlvs A O F G L H1 H2.
  destruct (receive_ok g ni li n l ds fw nd sl ty will mpr tlvs A O F G L H1 H2) as (g' & n' & l' & R1 & R2 & R3 & R4 & R5 & R6 & R7 & R8 & R9 & R10).
  exists g', n', l'. do 4 (split; [auto|]). intros i d Hd. destruct (R10 i d Hd) as (x & y & p & o & _ & Y & _ & _ & _ & _ & W & _). eauto.
Qed.

Definition d0 (w : Z) := mkDom 0 w false METRIC_INFINITE METRIC_INFINITE.
Definition d1 (w : Z) := mkDom 1 w false METRIC_INFINITE METRIC_INFINITE.
Definition nd0 := mkND METRIC_INFINITE METRIC_INFINITE None METRIC_INFINITE 0 false false.
Definition nd_mpr := mkND METRIC_INFINITE METRIC_INFINITE None METRIC_INFINITE 0 false true.
Definition nds0 := [nd0; nd0; nd0; nd0].
Definition link0 (st : status) (a b : Z) :=
  mkL st 0 false false [(a, b); (a, b); (METRIC_INFINITE, METRIC_INFINITE); (METRIC_INFINITE, METRIC_INFINITE)] [].
Definition node0 (ds : list dom) := mkNode ds 7 0 [] [mkNB nds0 [link0 Heard 100 METRIC_INFINITE; link0 Lost 1 1]; mkNB nds0 []] false.

Lemma node0_at ds : doms_ok ds -> at_link (node0 ds) 0 0 (mkNB nds0 [link0 Heard 100 METRIC_INFINITE; link0 Lost 1 1]) (link0 Heard 100 METRIC_INFINITE).
Proof.
  intros O. split; [exact O|]. split; [|split; reflexivity]. repeat constructor.
Qed.
Ltac dok := split; [vm_compute; split; congruence|split; [|repeat constructor; vm_compute; congruence]];
  repeat constructor; cbn; intuition congruence.
Lemma ok01 : doms_ok [d0 3; d1 9]. Proof. dok. Qed.
Lemma ok10 : doms_ok [d1 4; d0 5]. Proof. dok. Qed.
Lemma ok01r : doms_ok [d0 4; d1 5]. Proof. dok. Qed.
Lemma ok1 : doms_ok [d1 9]. Proof. dok. Qed.

Example C73_ex : exists g ni li n l ds fw nd sl ty will mpr,
  at_link g ni li n l /\ doms_ok ds /\ 0 <= fw <= 15 /\ agree ds (g_doms g) /\ zlen nd = 4 /\
  hello_tlvs ds fw = Some (ty, will) /\ hello_mpr ds nd sl = Some mpr /\ ds <> g_doms g /\ fw <> 0.
Proof.
  exists (node0 [d0 4; d1 5]), 0, 0. do 2 eexists. exists [d0 3; d1 9], 6, [nd0; nd_mpr; nd0; nd0], (link0 Symmetric 10 20).
  do 3 eexists. split; [apply node0_at, ok01r|]. split; [apply ok01|]. split; [lia|]. split; [exists []; left; reflexivity|].
  split; [reflexivity|]. split; [vm_compute; reflexivity|]. split; [vm_compute; reflexivity|]. split; discriminate.
Qed.

(** The content of the MPR types TLV is ignored: a sender with the same domains in
    another order is given the willingness of the wrong domain. *)
Theorem C73_order_refuted : exists g n l ds fw nd sl ty will mpr g' n' l' d y,
  at_link g 0 0 n l /\ doms_ok ds /\ 0 <= fw <= 15 /\ Permutation (map d_ext ds) (map d_ext (g_doms g)) /\ zlen nd = 4 /\
  hello_tlvs ds fw = Some (ty, will) /\ hello_mpr ds nd sl = Some mpr /\
  receive g 0 0 ty (Some will) mpr [] = Some g' /\ at_link g' 0 0 n' l' /\
  zget (g_doms g) 0 = Some d /\ zget (nb_data n') 0 = Some y /\ ~ will_for ds (d_ext d) (n_will y).
Proof.
  pose proof (node0_at [d1 4; d0 5] ok10) as A.
  destruct (C73_hello_read _ 0 0 _ _ (Some [0; 1]) (Some [54; 9]) (Some [0]) [] A) as (g' & n' & l' & R1 & R2 & _);
    [intros v E; injection E as <-; vm_compute; congruence|intros v E; injection E as <-; vm_compute; congruence|].
  exists (node0 [d1 4; d0 5]). do 2 eexists. exists [d0 3; d1 9], 6, nds0, (link0 Symmetric 10 20). eexists _, _, _, g', n', l', (d1 4).
  vm_compute in R1. injection R1 as <-. pose proof R2 as (_ & _ & Hn & _). cbn in Hn. injection Hn as <-.
  eexists. split; [exact A|]. split; [exact ok01|]. split; [lia|]. split; [apply perm_swap|]. split; [reflexivity|].
  split; [vm_compute; reflexivity|]. split; [vm_compute; reflexivity|]. split; [vm_compute; reflexivity|]. split; [exact R2|].
  split; [reflexivity|]. split; [reflexivity|]. cbn. intros [(d & I & E1 & E2)|(N & _)].
  - cbn in I. destruct I as [<- |[<- |[]]]; cbn in *; congruence.
  - apply N. cbn. auto.
Qed.

(** A sender with one domain sends no MPR types TLV; the receiver takes its own
    first domain for it, although the sender has another one. *)
Theorem C73_single_refuted : exists g n l ds fw nd sl ty will mpr g' n' l' d y,
  at_link g 0 0 n l /\ doms_ok ds /\ 0 <= fw <= 15 /\ zlen nd = 4 /\
  hello_tlvs ds fw = Some (ty, will) /\ hello_mpr ds nd sl = Some mpr /\
  receive g 0 0 ty (Some will) mpr [] = Some g' /\ at_link g' 0 0 n' l' /\
  zget (g_doms g) 0 = Some d /\ ~ In (d_ext d) (map d_ext ds) /\ zget (nb_data n') 0 = Some y /\ n_will y = 9 /\
  ~ will_for ds (d_ext d) (n_will y).
Proof.
  pose proof (node0_at [d0 4; d1 5] ok01r) as A.
  destruct (C73_hello_read _ 0 0 _ _ None (Some [150]) (Some [0]) [] A) as (g' & n' & l' & R1 & R2 & _);
    [intros v E; injection E as <-; vm_compute; congruence|intros v E; injection E as <-; vm_compute; congruence|].
  exists (node0 [d0 4; d1 5]). do 2 eexists. exists [d1 9], 6, nds0, (link0 Symmetric 10 20). eexists _, _, _, g', n', l', (d0 4).
  vm_compute in R1. injection R1 as <-. pose proof R2 as (_ & _ & Hn & _). cbn in Hn. injection Hn as <-.
  eexists. split; [exact A|]. split; [exact ok1|]. split; [lia|]. split; [reflexivity|].
  split; [vm_compute; reflexivity|]. split; [vm_compute; reflexivity|]. split; [vm_compute; reflexivity|]. split; [exact R2|].
  split; [reflexivity|]. split; [cbn; intuition congruence|]. split; [reflexivity|]. split; [reflexivity|]. cbn. intros [(d & I & E1 & E2)|(_ & N)].
  - cbn in I. destruct I as [<- |[]]; cbn in *; congruence.
  - congruence.
Qed.

(** ** C74: selection as MPR *)

(** In full: after a HELLO the receiver knows for every domain, and for flooding,
    whether the sender selected it as MPR, and [nhdp_domain_node_is_mpr] tells
    whether any neighbor did.  Missing: domains in another order; HELLOs without
    MPR TLV; removed neighbors (refuted below). *)
Theorem C74_mpr_selection_partial : forall g ni li n l ds fw nd sl ty will mpr tlvs,
  at_link g ni li n l -> doms_ok ds -> 0 <= fw <= 15 -> agree ds (g_doms g) -> zlen nd = 4 ->
  hello_tlvs ds fw = Some (ty, will) -> hello_mpr ds nd sl = Some mpr ->
  exists g' n' l', receive g ni li ty (Some will) mpr tlvs = Some g' /\ at_link g' ni li n' l' /\
    same_rest g g' ni li n n' /\ k_lfmpr l' = k_nfmpr sl /\ k_nfmpr l' = k_nfmpr l /\
    (g_mpr g' = true <-> is_mpr (g_doms g') (g_nbs g')) /\
    forall i d, zget (g_doms g) i = Some d -> exists x y, zget (nb_data n) i = Some x /\ zget (nb_data n') i = Some y /\
      (n_lmpr y = true <-> selected_for ds nd (d_ext d)) /\ n_nmpr y = n_nmpr x.
Proof.
  intros g ni li n l ds fw nd sl ty will mpr tlvs A O F G L H1 H2.
  destruct (receive_ok g ni li n l ds fw nd sl ty will mpr tlvs A O F G L H1 H2) as (g' & n' & l' & R1 & R2 & R3 & R4 & R5 & R6 & R7 & R8 & R9 & R10).
  exists g', n', l'. do 6 (split; [auto|]). intros i d Hd. destruct (R10 i d Hd) as (x & y & p & o & X & Y & _ & _ & _ & N & _ & M & _). exists x, y. auto.
Qed.
Example C74_ex : exists ds nd, doms_ok ds /\ zlen nd = 4 /\ selected_for ds nd 1 /\ ~ selected_for ds nd 0 /\
  (exists ty will, hello_tlvs ds 7 = Some (ty, will)) /\ exists mpr, hello_mpr ds nd (link0 Symmetric 10 20) = Some mpr.
Proof.
  exists [d0 3; d1 9], [nd0; nd_mpr; nd0; nd0]. split; [exact ok01|]. split; [reflexivity|].
  split; [exists 1, (d1 9), nd_mpr; auto|]. split.
  - intros (i & d & x & H1 & H2 & H3 & H4). pose proof (zget_bound _ _ _ H1) as B. unfold zlen in B; cbn in B.
    assert (i = 0 \/ i = 1) as [-> | ->] by lia; cbn in *; injection H1 as <-; [injection H3 as <-; discriminate|discriminate].
  - split; [do 2 eexists; vm_compute; reflexivity|eexists; vm_compute; reflexivity].
Qed.

(** Same domains in another order: the receiver believes to be MPR in a domain in
    which it was not selected. *)
Theorem C74_order_refuted : exists g n l ds fw nd sl ty will mpr g' n' l' d y,
  at_link g 0 0 n l /\ doms_ok ds /\ 0 <= fw <= 15 /\ Permutation (map d_ext ds) (map d_ext (g_doms g)) /\ zlen nd = 4 /\
  hello_tlvs ds fw = Some (ty, will) /\ hello_mpr ds nd sl = Some mpr /\
  receive g 0 0 ty (Some will) mpr [] = Some g' /\ at_link g' 0 0 n' l' /\
  zget (g_doms g) 1 = Some d /\ zget (nb_data n') 1 = Some y /\ n_lmpr y = true /\ ~ selected_for ds nd (d_ext d).
Proof.
  pose proof (node0_at [d1 4; d0 5] ok10) as A.
  destruct (C73_hello_read _ 0 0 _ _ (Some [0; 1]) (Some [54; 9]) (Some [4]) [] A) as (g' & n' & l' & R1 & R2 & _);
    [intros v E; injection E as <-; vm_compute; congruence|intros v E; injection E as <-; vm_compute; congruence|].
  exists (node0 [d1 4; d0 5]). do 2 eexists. exists [d0 3; d1 9], 6, [nd0; nd_mpr; nd0; nd0], (link0 Symmetric 10 20). eexists _, _, _, g', n', l', (d0 5).
  vm_compute in R1. injection R1 as <-. pose proof R2 as (_ & _ & Hn & _). cbn in Hn. injection Hn as <-.
  eexists. split; [exact A|]. split; [exact ok01|]. split; [lia|]. split; [apply perm_swap|]. split; [reflexivity|].
  split; [vm_compute; reflexivity|]. split; [vm_compute; reflexivity|]. split; [vm_compute; reflexivity|]. split; [exact R2|].
  split; [reflexivity|]. split; [reflexivity|]. split; [reflexivity|].
  intros (i & d & x & H1 & H2 & H3 & H4). pose proof (zget_bound _ _ _ H1) as B. unfold zlen in B; cbn in B.
  assert (i = 0 \/ i = 1) as [-> | ->] by lia; cbn in *; injection H1 as <-; [injection H3 as <-; discriminate|discriminate].
Qed.

(** The only neighbor that selected us sends a HELLO without MPR TLV for our
    address: its flag is cleared, but [nhdp_domain_node_is_mpr] stays true. *)
Theorem C74_no_tlv_stale_refuted : exists g n l g' n' l',
  at_link g 0 0 n l /\ (g_mpr g = true <-> is_mpr (g_doms g) (g_nbs g)) /\
  receive g 0 0 (Some [0; 1]) (Some [54; 9]) None [] = Some g' /\ at_link g' 0 0 n' l' /\
  g_mpr g' = true /\ ~ is_mpr (g_doms g') (g_nbs g').
Proof.
  set (a := mkND METRIC_INFINITE METRIC_INFINITE None METRIC_INFINITE 3 true false).
  set (g := mkNode [d0 4; d1 5] 7 0 [] [mkNB [nd0; a; nd0; nd0] [link0 Symmetric 100 200]; mkNB nds0 []] true).
  assert (at_link g 0 0 (mkNB [nd0; a; nd0; nd0] [link0 Symmetric 100 200]) (link0 Symmetric 100 200)) as A.
  { split; [exact ok01r|]. split; [|split; reflexivity]. repeat constructor. }
  destruct (C73_hello_read g 0 0 _ _ (Some [0; 1]) (Some [54; 9]) None [] A) as (g' & n' & l' & R1 & R2 & _);
    [intros v E; injection E as <-; vm_compute; congruence|discriminate|].
  exists g. do 2 eexists. exists g', n', l'. split; [exact A|]. split.
  { split; [|reflexivity]. intros _. exists 1. eexists. exists a. split; [vm_compute; split; congruence|].
    split; [left; reflexivity|]. split; reflexivity. }
  split; [exact R1|]. split; [exact R2|]. vm_compute in R1. injection R1 as <-. split; [reflexivity|].
  intros (i & m & x & B & I & H3 & H4). unfold zlen in B; cbn in B.
  cbn in I. assert (i = 0 \/ i = 1) as [-> | ->] by lia; destruct I as [<- |[<- |[]]]; cbn in H3; injection H3 as <-; discriminate.
Qed.

(** The only neighbor that selected us is removed: [nhdp_domain_node_is_mpr] stays
    true, and the node goes on to send topology messages. *)
Theorem C74_removed_stale_refuted : exists g n l,
  at_link g 0 0 n l /\ (g_mpr g = true <-> is_mpr (g_doms g) (g_nbs g)) /\
  g_mpr (remove_nb g 0) = true /\ ~ is_mpr (g_doms (remove_nb g 0)) (g_nbs (remove_nb g 0)).
Proof.
  set (a := mkND METRIC_INFINITE METRIC_INFINITE None METRIC_INFINITE 3 true false).
  set (g := mkNode [d0 4; d1 5] 7 0 [] [mkNB [nd0; a; nd0; nd0] [link0 Symmetric 100 200]; mkNB nds0 []] true).
  exists g. do 2 eexists. split.
  { split; [exact ok01r|]. split; [|split; reflexivity]. repeat constructor. }
  split.
  { split; [|reflexivity]. intros _. exists 1. eexists. exists a. split; [vm_compute; split; congruence|].
    split; [left; reflexivity|]. split; reflexivity. }
  split; [reflexivity|].
  intros (i & m & x & B & I & H3 & H4). unfold zlen in B; cbn in B.
  cbn in I. assert (i = 0 \/ i = 1) as [-> | ->] by lia; destruct I as [<- |[]]; cbn in H3; injection H3 as <-; discriminate.
Qed.

(** ** C75: neighbor metrics *)

(** The metrics of a neighbor are the best of its symmetric links, and the best
    link is the first of them with this outgoing metric; other domains and the
    metrics of links and two-hop neighbors are not changed. *)
Theorem C75_neighbor_metric : forall i n x, 0 <= i < 4 -> shape n -> zget (nb_data n) i = Some x ->
  exists ch y n', recalculate i n = Some (ch, n') /\ zget (nb_data n') i = Some y /\ shape n' /\
    least (metrics_in i n) (n_in y) /\ least (metrics_out i n) (n_out y) /\
    (n_best y = None <-> n_out y = METRIC_INFINITE) /\
    (forall p, n_best y = Some p -> first_link i n (n_out y) p) /\
    (forall j, j <> i -> zget (nb_data n') j = zget (nb_data n) j) /\
    n_will y = n_will x /\ n_lmpr y = n_lmpr x /\ n_nmpr y = n_nmpr x /\
    Forall2 (lnk_touched i) (nb_links n) (nb_links n').
Proof.
  intros i n x Hi Sh Hx. destruct (recalculate_ok i n x Hi Sh Hx) as (ch & y & n' & R1 & R2 & R3 & R4 & R5 & R6 & R7 & R8 & R9 & R10 & R11).
  exists ch, y, n'. do 5 (split; [auto|]). destruct R11 as [(B1 & B2 & _)|(B1 & (p & B2 & B3) & _)].
  - split; [tauto|]. split; [congruence|]. auto 10.
  - split; [split; [congruence|lia]|]. split; [intros q E; assert (q = p) by congruence; now subst|]. auto 10.
Qed.
Example C75_ex : exists n x y n' ch, shape n /\ zget (nb_data n) 0 = Some x /\ recalculate 0 n = Some (ch, n') /\
  zget (nb_data n') 0 = Some y /\ n_in y = 50 /\ n_out y = 80 /\ n_best y = Some 2.
Proof.
  exists (mkNB nds0 [link0 Heard 1 1; link0 Symmetric 50 100; link0 Symmetric 60 80; link0 Symmetric 70 80]).
  do 4 eexists. split; [repeat constructor|]. split; [reflexivity|]. split; [vm_compute; reflexivity|]. repeat split.
Qed.

(** The result of the calculation (it decides whether the listeners of the domain
    are told) for two calculations in a row, with any change of the links between
    them.  In full: it is true exactly when the outgoing metric of the neighbor or
    the one of a two-hop neighbor is not the one of the calculation before.
    Missing: the neighbor has no usable link at one of the two times; refuted
    below. *)
Theorem C75_changed_partial : forall i n c n1 x1 n2 c2 n3 x3,
  0 <= i < 4 -> shape n -> recalculate i n = Some (c, n1) -> zget (nb_data n1) i = Some x1 ->
  nb_data n2 = nb_data n1 -> shape n2 -> recalculate i n2 = Some (c2, n3) -> zget (nb_data n3) i = Some x3 ->
  n_out x1 <> METRIC_INFINITE -> n_out x3 <> METRIC_INFINITE ->
  (c2 = true <-> n_out x3 <> n_out x1 \/ twohop_changed i n2).
Proof.
  intros i n c n1 x1 n2 c2 n3 x3 Hi S1 R1 H1 E S2 R2 H3 F1 F3.
  destruct (zget_Some (nb_data n) i) as (x & Hx); [destruct S1; lia|].
  destruct (recalculate_ok i n x Hi S1 Hx) as (ch & y & n' & P1 & P2 & _ & _ & _ & _ & _ & _ & _ & _ & P3).
  rewrite R1 in P1. injection P1 as <- <-. assert (y = x1) by congruence. subst y.
  destruct (recalculate_ok i n2 x1 Hi S2) as (ch & y & n' & Q1 & Q2 & _ & _ & _ & _ & _ & _ & _ & _ & Q3); [congruence|].
  rewrite R2 in Q1. injection Q1 as <- <-. assert (y = x3) by congruence. subst y.
  destruct P3 as [(_ & P3 & _)|(_ & _ & P3 & _)]; [congruence|].
  destruct Q3 as [(_ & Q3 & _)|(_ & _ & _ & Q3)]; [congruence|]. rewrite Q3, P3. tauto.
Qed.
(** a change of a two-hop metric behind a symmetric link is always told *)
Theorem C75_twohop_change : forall i n x c n', 0 <= i < 4 -> shape n -> zget (nb_data n) i = Some x ->
  recalculate i n = Some (c, n') -> twohop_changed i n -> c = true.
Proof.
  intros i n x c n' Hi Sh Hx R T. destruct (recalculate_ok i n x Hi Sh Hx) as (ch & y & n1 & P1 & _ & _ & _ & _ & _ & _ & _ & _ & _ & P).
  rewrite R in P1. injection P1 as <- <-. destruct P as [(_ & _ & _ & P)|(_ & _ & _ & P)]; apply P; auto.
Qed.

(** The last symmetric link is lost: the outgoing metric becomes infinite and
    nobody is told; when the link comes back with the same metric, nobody is told
    either. *)
Theorem C75_lost_refuted : exists n n1 x1 n3 x3 n5 x5,
  shape n /\ recalculate 0 n = Some (true, n1) /\ zget (nb_data n1) 0 = Some x1 /\ n_out x1 = 20 /\
  recalculate 0 (mkNB (nb_data n1) [link0 Heard 10 20]) = Some (false, n3) /\ zget (nb_data n3) 0 = Some x3 /\
  n_out x3 = METRIC_INFINITE /\
  recalculate 0 (mkNB (nb_data n3) [link0 Symmetric 10 20]) = Some (false, n5) /\ zget (nb_data n5) 0 = Some x5 /\ n_out x5 = 20.
Proof.
  exists (mkNB nds0 [link0 Symmetric 10 20]). do 6 eexists. split; [repeat constructor|].
  split; [vm_compute; reflexivity|]. split; [reflexivity|]. split; [reflexivity|].
  split; [vm_compute; reflexivity|]. split; [reflexivity|]. split; [reflexivity|]. split; [vm_compute; reflexivity|]. split; reflexivity.
Qed.
(** A change of the incoming metric alone is not told: the metric of the neighbor
    is another one afterwards, the result is false. *)
Theorem C75_incoming_refuted : exists n n1 x1 n3 x3,
  shape n /\ recalculate 0 n = Some (true, n1) /\ zget (nb_data n1) 0 = Some x1 /\
  recalculate 0 (mkNB (nb_data n1) [link0 Symmetric 77 20]) = Some (false, n3) /\ zget (nb_data n3) 0 = Some x3 /\
  n_in x1 = 10 /\ n_in x3 = 77 /\ n_out x3 = n_out x1.
Proof.
  exists (mkNB nds0 [link0 Symmetric 10 20]). do 4 eexists. split; [repeat constructor|].
  split; [vm_compute; reflexivity|]. split; [reflexivity|]. split; [vm_compute; reflexivity|]. split; [reflexivity|]. repeat split.
Qed.

(** ** C76: exchange of metrics *)

(** In full: after a HELLO the outgoing metric of the link is the incoming metric
    which the sender has for it ([received]: rounded up to a value that can be
    sent), in every domain which the nodes have in common; domains may be in any
    order, TLVs of other domains in between.  Missing: domains whose metric has no
    default handling; refuted below. *)
Theorem C76_link_metric_partial : forall g ni li n l ty will mpr tlvs,
  at_link g ni li n l -> (forall v, will = Some v -> 1 <= zlen v) -> (forall v, mpr = Some v -> 1 <= zlen v) ->
  exists g' n' l', receive g ni li ty will mpr tlvs = Some g' /\ at_link g' ni li n' l' /\
    same_rest g g' ni li n n' /\ k_status l' = k_status l /\
    forall i d, zget (g_doms g) i = Some d -> exists p o, zget (k_data l) i = Some p /\ zget (k_data l') i = Some (fst p, o) /\
      (d_nodef d = false ->
       (** TLVs of a sender *)
       (forall ds k e sl sn ms vs m, zget ds k = Some e -> d_ext e = d_ext d -> metrics_of k (Some sl) sn = Some ms ->
          Forall (fun m => 0 <= m) ms -> zlen ms = 4 -> write_metrics ms = Some vs -> carries tlvs (d_ext d) vs ->
          zget (k_data sl) k = Some m -> received (fst m) o) /\
       (** no TLV of this domain *)
       (carries tlvs (d_ext d) [] -> o = METRIC_INFINITE)).
Proof.
  intros g ni li n l ty will mpr tlvs A Hw Hm.
  destruct (receive_any g ni li n l ty will mpr tlvs A Hw Hm) as (g' & n' & l' & R1 & R2 & R3 & R4 & R5).
  exists g', n', l'. do 4 (split; [auto|]). intros i d Hd. destruct (R5 i d Hd) as (p & o & P1 & P2 & P3).
  exists p, o. do 2 (split; [auto|]). intros ND. split.
  - intros ds k e sl sn ms vs m He Ee Hms Fm Lm Hv C Hk.
    assert (zget ms 0 = Some (fst m)) as Z0.
    { unfold metrics_of in Hms. rewrite Hk in Hms. destruct sn as [sn|]; [destruct (zget (nb_data sn) k); [|discriminate]|]; injection Hms as <-; reflexivity. }
    exact (received_out (g_doms g) tlvs i o ms vs (fst m) d Hd ND C Hv Lm Fm Z0 P3).
  - intros C. unfold out_after in P3. rewrite Hd, ND in P3. destruct P3 as [(P3 & _)|(v & P3 & _)]; [auto|].
    apply (carries_flag _ _ _ _ v C) in P3. destruct P3 as ([] & _).
Qed.
(** the TLVs can always be written *)
Theorem C76_metrics_written : forall ms, zlen ms = 4 -> Forall (fun m => 0 <= m) ms -> exists vs, write_metrics ms = Some vs.
Proof. intros ms L F. destruct (write_metrics_ok ms L F) as (vs & H & _). eauto. Qed.

(** In full: the metrics of a two-hop neighbor are those the sender has for its
    neighbor.  Missing: no default handling. *)
Theorem C76_twohop_metric_partial : forall ds tlvs td, doms_ok ds -> zlen td = 4 ->
  exists td', process_2hopdata ds tlvs td = Some td' /\ zlen td' = 4 /\
  forall j d, zget ds j = Some d -> d_nodef d = false ->
  forall k sl sn ms vs x, metrics_of k sl (Some sn) = Some ms -> zlen ms = 4 -> Forall (fun m => 0 <= m) ms ->
    write_metrics ms = Some vs -> carries tlvs (d_ext d) vs -> zget (nb_data sn) k = Some x ->
    exists y, zget td' j = Some y /\ received (n_in x) (t_in y) /\ received (n_out x) (t_out y).
Proof.
  intros ds tlvs td (O1 & O2 & _) L. destruct (twohop_received ds tlvs td ltac:(lia) O2 L) as (td' & T1 & T2 & T3).
  exists td'. do 2 (split; [auto|]). intros j d Hd ND k sl sn ms vs x Hms Lm F W C Hx.
  unfold metrics_of in Hms. rewrite Hx in Hms.
  destruct sl as [sl|]; [destruct (zget (k_data sl) k); [|discriminate]|]; cbn [app] in Hms; injection Hms as <-;
    (eapply T3; eauto; reflexivity).
Qed.

Example C76_ex : exists g n l tlvs ms vs, at_link g 0 0 n l /\ metrics_of 1 (Some (link0 Symmetric 5000 20)) None = Some ms /\
  Forall (fun m => 0 <= m) ms /\ zlen ms = 4 /\ write_metrics ms = Some vs /\ vs <> [] /\ carries tlvs 1 vs /\
  tlvs <> map (fun v => (1, v)) vs /\ exists v, received 5000 v /\ v <> METRIC_INFINITE.
Proof.
  exists (node0 [d0 4; d1 5]). do 2 eexists.
  destruct (write_metrics [5000; 20; 0; 0]) as [vs|] eqn:E; [|vm_compute in E; discriminate].
  exists ((0, (128, 7)) :: map (fun v => (1, v)) vs), [5000; 20; 0; 0], vs.
  split; [apply node0_at, ok01r|]. split; [reflexivity|]. split; [repeat constructor; lia|]. split; [reflexivity|]. split; [auto|].
  split; [vm_compute in E; injection E as <-; discriminate|]. split.
  { unfold carries. cbn. clear. induction vs; cbn; auto. }
  split; [vm_compute in E; injection E as <-; discriminate|].
  destruct (CodecProofs.metric_encode_ok 5000) as (b0 & b1 & H & _ & _ & M); [vm_compute; split; congruence|].
  exists (metric_value (256 * b0 + b1)). vm_compute in H. injection H as <- <-. split; [|vm_compute; congruence].
  left. split; [vm_compute; split; congruence|]. eexists. split; [exact M|reflexivity].
Qed.

(** The default metric ("hopcount") has no default handling: it does not read TLVs
    but has fixed metrics for each new link.  Any HELLO that contains our address
    makes the outgoing metric infinite, and the metric of the symmetric neighbor
    with it. *)
Theorem C76_hopcount_refuted : exists d l n g g' n' l' c n2 x,
  d_nodef d = true /\ init_link [d] Symmetric = Some l /\ zget (k_data l) 0 = Some (METRIC_MAX, METRIC_MAX) /\
  g = mkNode [d] 7 0 [] [n] false /\ nb_links n = [l] /\ at_link g 0 0 n l /\
  receive g 0 0 None (Some [119]) (Some [0]) [] = Some g' /\ at_link g' 0 0 n' l' /\
  zget (k_data l') 0 = Some (METRIC_MAX, METRIC_INFINITE) /\
  recalculate 0 n' = Some (c, n2) /\ zget (nb_data n2) 0 = Some x /\ n_out x = METRIC_INFINITE /\ n_best x = None.
Proof.
  set (d := mkDom 0 7 true METRIC_MAX METRIC_MAX).
  set (l := mkL Symmetric 0 false false [(METRIC_MAX, METRIC_MAX); (METRIC_INFINITE, METRIC_INFINITE); (METRIC_INFINITE, METRIC_INFINITE); (METRIC_INFINITE, METRIC_INFINITE)] []).
  set (n := mkNB nds0 [l]). set (g := mkNode [d] 7 0 [] [n] false).
  assert (at_link g 0 0 n l) as A.
  { split; [dok|]. split; [|split; reflexivity]. repeat constructor. }
  destruct (C73_hello_read g 0 0 _ _ None (Some [119]) (Some [0]) [] A) as (g' & n' & l' & R1 & R2 & _);
    [intros v E; injection E as <-; vm_compute; congruence|intros v E; injection E as <-; vm_compute; congruence|].
  exists d, l, n, g, g', n', l'. pose proof R2 as (_ & _ & Hn & Hl). pose proof R1 as R1'. vm_compute in R1'. injection R1' as <-.
  cbn in Hn. injection Hn as <-. cbn in Hl. injection Hl as <-. do 3 eexists.
  split; [reflexivity|]. split; [vm_compute; reflexivity|]. split; [reflexivity|]. split; [reflexivity|]. split; [reflexivity|].
  split; [exact A|]. split; [exact R1|]. split; [exact R2|]. split; [reflexivity|]. split; [vm_compute; reflexivity|]. repeat split.
Qed.

Print Assumptions C73_hello_written.
Print Assumptions C73_hello_read.
Print Assumptions C73_willingness_partial.
Print Assumptions C73_order_refuted.
Print Assumptions C73_single_refuted.
Print Assumptions C74_mpr_selection_partial.
Print Assumptions C74_order_refuted.
Print Assumptions C74_no_tlv_stale_refuted.
Print Assumptions C74_removed_stale_refuted.
Print Assumptions C75_neighbor_metric.
Print Assumptions C75_changed_partial.
Print Assumptions C75_twohop_change.
Print Assumptions C75_lost_refuted.
Print Assumptions C75_incoming_refuted.
Print Assumptions C76_link_metric_partial.
Print Assumptions C76_metrics_written.
Print Assumptions C76_twohop_metric_partial.
Print Assumptions C76_hopcount_refuted.

(** C50: the routes are the cheapest ways through the topology. *)
From Verif Require Import Base DijkstraModel DijkstraSpec DijkstraProofs DijkstraOpt DijkstraTable DijkstraNear.

(** The calculation ends without touching a dangling pointer, whatever the
    metrics, flags and previous results are. *)
Theorem C50_terminates : forall ev tp nbs f l, topo_ok ev tp ->
  exists l' f', calculate_routes ev tp nbs f l = Some (l', f').
Proof. exact calculate_safe. Qed.

(** Full statement: for every destination the table has a route exactly if
    some way is admissible, and the route describes a cheapest way.

    Missing for the full statement: destinations with a source prefix while
    only some of the nodes are source specific (see
    [C50_source_specific_refuted]); paths longer than 255 hops (see
    [C50_long_path_refuted]). *)
Theorem C50_shortest_routes_partial : forall ev tp nbs f l,
  topo_ok ev tp -> neighs_ok nbs -> near ev tp nbs ->
  (forall k, d_local (f (TEnd k)) = false) ->
  NoDup (map re_key l) ->
  exists l' f', calculate_routes ev tp nbs f l = Some (l', f') /\ NoDup (map re_key l') /\
  forall k,
    ((check_ssnode_split ev tp AF_INET = false /\ check_ssnode_split ev tp AF_INET6 = false) \/
     ev_srclen ev k <= 0) ->
    (forall e, In e l' -> re_key e = k -> re_set e = true ->
       exists w, leads ev tp nbs k w /\ admissible ev (map re_key l) k (w_cost w) /\
         describes ev e w /\ forall w', leads ev tp nbs k w' -> w_cost w <= w_cost w') /\
    (forall w, leads ev tp nbs k w -> admissible ev (map re_key l) k (w_cost w) ->
       exists e, In e l' /\ re_key e = k /\ re_set e = true).
Proof.
  intros ev tp nbs f l TK NK NE LF ND.
  destruct (calculate_ok ev tp nbs TK NK (near_fit ev tp nbs NE) f l LF) as (l' & f' & E & H).
  exists l', f'. split; [exact E|].
  pose proof (calculate_NoDup ev tp nbs f l l' f' TK ND E) as ND'. split; [exact ND'|].
  intros k C. destruct (H k C) as [H1 H2]. split.
  - intros e He K S. apply (H1 e); [|exact S]. rewrite <- K. now apply In_find.
  - intros w L A. destruct (H2 w L A) as (e & F & S). apply find_In in F as [F1 F2]. eauto.
Qed.

(** Destinations nobody leads to have no route. *)
Theorem C50_unreachable : forall ev tp nbs f l l' f' k e,
  topo_ok ev tp -> neighs_ok nbs -> near ev tp nbs ->
  (forall k, d_local (f (TEnd k)) = false) ->
  NoDup (map re_key l) ->
  check_ssnode_split ev tp AF_INET = false -> check_ssnode_split ev tp AF_INET6 = false ->
  calculate_routes ev tp nbs f l = Some (l', f') ->
  (forall w, ~ leads ev tp nbs k w) -> In e l' -> re_key e = k -> re_set e = false.
Proof.
  intros ev tp nbs f l l' f' k e TK NK NE LF ND S4 S6 E NO HI HK.
  destruct (C50_shortest_routes_partial ev tp nbs f l TK NK NE LF ND) as (l1 & f1 & E1 & _ & H).
  rewrite E in E1. injection E1 as <- <-.
  destruct (H k (or_introl (conj S4 S6))) as [H1 _].
  destruct (re_set e) eqn:S; [|reflexivity].
  destruct (H1 e HI HK S) as (w & L & _). exfalso. exact (NO w L).
Qed.

(** The bound on the number of hops holds in all networks with at most 255
    known nodes. *)
Theorem C50_small_networks : forall ev tp nbs, topo_ok ev tp ->
  zlen (tp_nodes tp) <= 255 -> near ev tp nbs.
Proof. intros ev tp nbs TK B. now apply small_near. Qed.

(** An example: IPv4 addresses are below 1000; router 1 with neighbors 2 and 3.  The direct links of
    the neighbors to 4 are worse than the detour 2, 3, 4; the network 200 is
    attached to 3 and 4; 31 is a second address of 3; 41 is a two-hop address;
    the IPv6 node 1002 is not linked to anything. *)
Definition ex_env : env :=
  Env (fun a => if a <? 1000 then AF_INET else AF_INET6) (fun a => a) (fun k => k)
    (fun k => if 500 <=? k then if k <? 600 then 64 else 0 else 0)
    (fun af => if af =? AF_INET then 1 else 1001) (fun a => a =? 1) (fun _ => None)
    (fun _ => true) (fun _ => true) (fun a => (a =? 1) || (a =? 1001)) (fun _ => true).
Definition ex_topo : topo :=
  Topo [TcNode 1 false false [TcEdge 2 10 false; TcEdge 3 100 false] [];
        TcNode 2 false false [TcEdge 1 10 false; TcEdge 3 20 false; TcEdge 4 300 false] [];
        TcNode 3 false false [TcEdge 1 100 false; TcEdge 4 50 false; TcEdge 2 1 true] [TcAtt 200 60 2];
        TcNode 4 false false [TcEdge 3 50 false] [TcAtt 200 1 7];
        TcNode 1002 false false [] [TcAtt 1200 1 1]]
       [TcEnd 200 4; TcEnd 1200 1002].
Definition ex_nbs : list neigh :=
  [Neigh 2 1 10 10 7 2 [2] []; Neigh 3 1 100 100 7 33 [31; 33] [L2 41 false 50; L2 42 true 1]].
Definition ex_dn : target -> dnode := fun _ => DNode 0 0 0 None false 0 false false.

Example C50_ex :
  topo_ok ex_env ex_topo /\ neighs_ok ex_nbs /\ near ex_env ex_topo ex_nbs /\
  (forall k, d_local (ex_dn (TEnd k)) = false) /\
  check_ssnode_split ex_env ex_topo AF_INET = false /\
  check_ssnode_split ex_env ex_topo AF_INET6 = false /\
  exists l' f', calculate_routes ex_env ex_topo ex_nbs ex_dn [] = Some (l', f') /\
    map (fun e => (re_key e, re_cost e, re_hops e, re_next e, p_gw (re_p e), re_set e)) l' =
      [(2, 10, 1, 2, 0, true); (3, 30, 2, 2, 2, true); (4, 80, 3, 2, 2, true);
       (31, 100, 1, 3, 33, true); (33, 100, 1, 3, 0, true); (41, 150, 2, 3, 33, true);
       (200, 81, 4, 2, 2, true)].
Proof.
  assert (TK : topo_ok ex_env ex_topo) by (apply topo_okb_ok; vm_compute; reflexivity).
  split; [exact TK|]. split; [apply neighs_okb_ok; reflexivity|].
  split; [apply small_near; [exact TK|vm_compute; discriminate]|].
  split; [reflexivity|]. split; [reflexivity|]. split; [reflexivity|].
  do 2 eexists. split; [vm_compute; reflexivity|]. vm_compute. reflexivity.
Qed.

(** Finding: while some nodes are not source specific, a source specific
    network which is announced by two nodes gets no route at all, although
    both are neighbors and source specific. *)
Definition ss_topo : topo :=
  Topo [TcNode 2 true true [] [TcAtt 500 1 1]; TcNode 3 true true [] [TcAtt 500 1 1];
        TcNode 4 false false [] []]
       [TcEnd 500 3].
Definition ss_nbs : list neigh := [Neigh 2 1 10 10 7 2 [2] []; Neigh 3 1 10 10 7 3 [3] []].
Theorem C50_source_specific_refuted :
  exists ev tp nbs f k w,
    topo_ok ev tp /\ neighs_ok nbs /\ near ev tp nbs /\
    (forall k, d_local (f (TEnd k)) = false) /\
    (forall n, In n (tp_nodes tp) -> In k (map a_dst (tn_atts n)) -> tn_ss n = true) /\
    leads ev tp nbs k w /\ admissible ev [] k (w_cost w) /\
    exists l' f', calculate_routes ev tp nbs f [] = Some (l', f') /\
      ~ exists e, In e l' /\ re_key e = k.
Proof.
  exists ex_env, ss_topo, ss_nbs, ex_dn, 500.
  assert (TK : topo_ok ex_env ss_topo) by (apply topo_okb_ok; vm_compute; reflexivity).
  set (nb := Neigh 2 1 10 10 7 2 [2] []).
  set (nd := TcNode 2 true true [] [TcAtt 500 1 1]).
  eexists. split; [exact TK|]. split; [apply neighs_okb_ok; reflexivity|].
  split; [apply small_near; [exact TK|vm_compute; discriminate]|].
  split; [reflexivity|].
  split.
  { intros n [<-|[<-|[<-|[]]]]; cbn; tauto. }
  split.
  { apply leads_path with (af := AF_INET) (t := TEnd 500); [now left| |reflexivity].
    apply (path_link ex_env ss_topo ss_nbs AF_INET true true nd (TEnd 500) 1 1
             (Way nb 10 1 0 1)); [now left| |].
    - apply (path_first ex_env ss_topo ss_nbs AF_INET true true nb).
      repeat split; try (vm_compute; congruence); [now left|].
      exists nd. split; [now left|]. split; [reflexivity|now left].
    - apply (link_att ex_env true true nd (TcAtt 500 1 1)); [now left|vm_compute; congruence|reflexivity]. }
  split.
  { repeat split; try (vm_compute; congruence); [intros (m & H & _); discriminate|now right]. }
  do 2 eexists. split; [vm_compute; reflexivity|].
  intros (e & [<-|[<-|[]]] & H); discriminate.
Qed.

(** Finding: the originator stored in a route is wrong for networks announced
    by several nodes: it is the node whose announcement was processed last,
    not the node the route leads to.  Here 200 is reached through 3, its
    last hop, while the route names 4 as originator. *)
Theorem C50_originator_refuted :
  exists ev tp nbs f l' f' e,
    topo_ok ev tp /\ neighs_ok nbs /\ near ev tp nbs /\
    (forall k, d_local (f (TEnd k)) = false) /\
    calculate_routes ev tp nbs f [] = Some (l', f') /\ In e l' /\ re_set e = true /\
    ~ exists n a, In n (tp_nodes tp) /\ tn_orig n = re_orig e /\ In a (tn_atts n) /\
        a_dst a = re_key e /\ tn_orig n = re_last e.
Proof.
  set (tp := Topo [TcNode 2 false false [] [TcAtt 200 1 1]; TcNode 3 false false [] [TcAtt 200 100 1]]
               [TcEnd 200 3]).
  exists ex_env, tp, ss_nbs, ex_dn.
  assert (TK : topo_ok ex_env tp) by (apply topo_okb_ok; vm_compute; reflexivity).
  do 3 eexists. split; [exact TK|]. split; [apply neighs_okb_ok; reflexivity|].
  split; [apply small_near; [exact TK|vm_compute; discriminate]|].
  split; [reflexivity|].
  split; [vm_compute; reflexivity|].
  split; [right; right; left; reflexivity|]. split; [reflexivity|].
  cbn. intros (n & a & [<-|[<-|[]]] & E1 & _ & _ & E2); discriminate.
Qed.

(** Finding: the path cost is added up in 32 bits.  On a chain of 257 links
    with the largest usable metric the cost wraps around; the entry is
    cheaper than every way to the destination. *)
Definition chain_node (a : Z) : tc_node :=
  TcNode a false false (if a <? 257 then [TcEdge (a + 1) METRIC_MAX false] else []) [].
Definition chain : topo := Topo (map (fun i => chain_node (Z.of_nat i)) (seq 1 257)) [].
Definition chain_nbs : list neigh := [Neigh 1 1 10 METRIC_MAX 7 1 [] []].
Definition chain_env : env :=
  Env (fun a => AF_INET) (fun a => a) (fun k => k) (fun k => 0)
    (fun af => 0) (fun a => false) (fun _ => None)
    (fun _ => true) (fun _ => true) (fun a => a =? 0) (fun _ => true).

Lemma chain_path af t w : path chain_env chain chain_nbs af true true t w ->
  exists a, t = TNode a /\ w_cost w = a * METRIC_MAX.
Proof.
  intros H. induction H as [nb F|node t c d w Hn HP IH L].
  - destruct F as ([<-|[]] & _). exists 1. split; reflexivity.
  - destruct IH as (a & E & C). injection E as E.
    cbn [chain tp_nodes] in Hn. apply in_map_iff in Hn as (i & <- & _).
    cbn [chain_node tn_orig] in E.
    destruct L as [e He V M O W|x Hx M W].
    + cbn [chain_node tn_edges] in He. destruct (Z.of_nat i <? 257); [|destruct He].
      destruct He as [<-|[]]. exists (Z.of_nat i + 1). split; [reflexivity|].
      cbn [w_cost e_cost]. rewrite C. lia.
    + destruct Hx.
Qed.

Theorem C50_long_path_refuted :
  exists ev tp nbs f l' f' e,
    topo_ok ev tp /\ neighs_ok nbs /\ (forall k, d_local (f (TEnd k)) = false) /\
    calculate_routes ev tp nbs f [] = Some (l', f') /\ In e l' /\ re_set e = true /\
    forall w, leads ev tp nbs (re_key e) w -> re_cost e < w_cost w.
Proof.
  assert (TK : topo_ok chain_env chain) by (apply topo_okb_ok; vm_compute; reflexivity).
  destruct (calculate_safe chain_env chain chain_nbs ex_dn [] TK) as (l' & f' & E).
  assert (C : option_map (fun r => find_entry (fst r) 257)
                (calculate_routes chain_env chain chain_nbs ex_dn []) =
              Some (Some (REntry 257 16711424 1 257 1 256 true false None
                            (RParam 7 1 0 0 0 0)))).
  { vm_compute. reflexivity. }
  rewrite E in C. cbn [option_map fst] in C. injection C as C. apply find_In in C as [C _].
  exists chain_env, chain, chain_nbs, ex_dn, l', f'. eexists.
  split; [exact TK|]. split; [apply neighs_okb_ok; reflexivity|]. split; [reflexivity|].
  split; [exact E|]. split; [exact C|]. split; [reflexivity|].
  cbn [re_key re_cost]. intros w L.
  destruct L as [af t w _ HP HK|nb addr Hnb HS HM HA HR HK|nb h Hnb HS HM HH HL HO HK].
  - apply chain_path in HP as (a & -> & ->). cbn in HK. subst a. reflexivity.
  - destruct Hnb as [<-|[]]. destruct HA.
  - destruct Hnb as [<-|[]]. destruct HH.
Qed.

Print Assumptions C50_terminates.
Print Assumptions C50_shortest_routes_partial.
Print Assumptions C50_unreachable.
Print Assumptions C50_small_networks.
Print Assumptions C50_source_specific_refuted.
Print Assumptions C50_originator_refuted.
Print Assumptions C50_long_path_refuted.

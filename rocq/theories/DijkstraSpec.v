(** What a correct route calculation does: paths over usable links, ways to a
    route key, and when a way may become a route.  Nothing here mentions the
    working queue, the dijkstra nodes or wrapping arithmetic. *)
From Verif Require Import Base DijkstraModel.

(** One way to reach a destination: the neighbor used as first hop, the sum
    of the link costs (an unbounded number), the number of hops, the distance
    announced for an attached network, and the originator before the last
    hop. *)
Record way := Way { w_first : neigh; w_cost : Z; w_hops : Z; w_dist : Z; w_last : Z }.

(** An originator address which belongs to this router itself. *)
Definition own_node (ev : env) (a : Z) : bool := ev_local ev (ev_dst ev (ev_host ev a)).

Section Paths.
  Context (ev : env) (tp : topo) (nbs : list neigh).

  (** Which part of the topology a calculation covers: an address family,
      and whether destinations without and with a source prefix are wanted.
      A calculation for source prefixes only uses source specific nodes. *)
  Context (af : Z) (plain srcspec : bool).

  Definition wanted_key (k : Z) : bool := if 0 <? ev_srclen ev k then srcspec else plain.

  (** [first_hop nb]: the symmetric neighbor [nb] is a node of the topology
      with usable metrics in both directions. *)
  Definition first_hop (nb : neigh) : Prop :=
    In nb nbs /\ ev_fam ev (nb_orig nb) = af /\ nb_sym nb <> 0 /\
    nb_in nb <= METRIC_MAX /\ nb_out nb <= METRIC_MAX /\ own_node ev (nb_orig nb) = false /\
    exists node, In node (tp_nodes tp) /\ tn_orig node = nb_orig nb /\
                 (plain = true \/ (tn_ss node = true /\ srcspec = true)).

  (** [link node t c d]: the node announced a usable link to [t] with cost [c]
      and distance [d]. *)
  Inductive link (node : tc_node) : target -> Z -> Z -> Prop :=
  | link_edge e : In e (tn_edges node) -> e_virtual e = false -> e_cost e <= METRIC_MAX ->
      own_node ev (e_dst e) = false -> (plain = true \/ tn_ss node = true) ->
      link node (TNode (e_dst e)) (e_cost e) 0
  | link_att a : In a (tn_atts node) -> a_cost a <= METRIC_MAX ->
      wanted_key (a_dst a) = true ->
      link node (TEnd (a_dst a)) (a_cost a) (a_dist a).

  (** Paths of any length. *)
  Inductive path : target -> way -> Prop :=
  | path_first nb : first_hop nb ->
      path (TNode (nb_orig nb)) (Way nb (nb_out nb) 1 0 (ev_originator ev af))
  | path_link node t c d w : In node (tp_nodes tp) ->
      path (TNode (tn_orig node)) w -> link node t c d ->
      path t (Way (w_first w) (w_cost w + c) (w_hops w + 1) d (ev_dst ev (ev_host ev (tn_orig node)))).
End Paths.

(** The route key of a target. *)
Definition key_of (ev : env) (t : target) : Z :=
  match t with TNode a => ev_host ev a | TEnd k => k end.

(** [leads ev tp nbs k w]: [w] is a way to the destinations of route key [k]:
    a path through the topology, an address of a symmetric neighbor, or an
    address of a symmetric two-hop neighbor. *)
Inductive leads (ev : env) (tp : topo) (nbs : list neigh) (k : Z) : way -> Prop :=
| leads_path af t w : af = AF_INET \/ af = AF_INET6 ->
    path ev tp nbs af true true t w -> key_of ev t = k -> leads ev tp nbs k w
| leads_neighbor nb addr : In nb nbs -> nb_sym nb <> 0 -> nb_out nb <= METRIC_MAX ->
    In addr (nb_addrs nb) -> ev_nhdp_routable ev addr = true -> ev_host ev addr = k ->
    leads ev tp nbs k
      (Way nb (nb_out nb) 1 0 (ev_originator ev (ev_fam ev (nb_orig nb))))
| leads_two_hop nb h : In nb nbs -> nb_sym nb <> 0 -> nb_out nb <= METRIC_MAX ->
    In h (nb_2hop nb) -> l2_lost h = false -> l2_out h <= METRIC_MAX ->
    ev_host ev (l2_addr h) = k ->
    leads ev tp nbs k (Way nb (nb_out nb + l2_out h) 2 0 (nb_orig nb)).

(** May a way of cost [c] become a route for [k]?  Not for own addresses, not
    for prefixes this router announces itself with a better metric, only for
    routable destinations; [known] tells that the table has an entry for the
    key already, otherwise memory is needed. *)
Definition admissible (ev : env) (known : list Z) (k c : Z) : Prop :=
  ev_originator ev (ev_fam ev (ev_dst ev k)) <> ev_dst ev k /\
  ev_ifaddr ev (ev_dst ev k) = false /\
  ~ (exists m, ev_lan ev k = Some (true, m) /\ m < c) /\
  ev_routable ev (ev_dst ev k) = true /\
  (In k known \/ ev_mem ev k = true).

(** A routing entry which describes a way: cost, number of hops (a byte),
    originator of the next hop, interface and gateway of the best link to the
    next hop (no gateway for the interface address of a direct neighbor),
    distance and last originator. *)
Definition describes (ev : env) (e : rentry) (w : way) : Prop :=
  re_cost e = w_cost w /\ re_hops e = u8 (w_hops w) /\
  re_next e = nb_orig (w_first w) /\ re_last e = w_last w /\
  p_if (re_p e) = nb_if (w_first w) /\
  p_metric (re_p e) = w_dist w /\
  ((p_gw (re_p e) = nb_gw (w_first w) /\ (w_hops w <> 1 \/ nb_gw (w_first w) <> ev_dst ev (re_key e)))
   \/ (p_gw (re_p e) = 0 /\ w_hops w = 1 /\ nb_gw (w_first w) = ev_dst ev (re_key e))).

(** The topology database, as olsrv2_tc.c keeps it: originators and keys are
    unique, a node has one attachment per key, links end at known targets,
    metrics are unsigned, links and attachments stay within an address
    family. *)
Record topo_ok (ev : env) (tp : topo) : Prop := {
  tk_nodes : NoDup (map tn_orig (tp_nodes tp));
  tk_ends : NoDup (map te_key (tp_ends tp));
  tk_atts : forall n, In n (tp_nodes tp) -> NoDup (map a_dst (tn_atts n));
  tk_edge : forall n e, In n (tp_nodes tp) -> In e (tn_edges n) ->
    0 <= e_cost e /\ In (e_dst e) (map tn_orig (tp_nodes tp)) /\
    ev_fam ev (e_dst e) = ev_fam ev (tn_orig n);
  tk_att : forall n a, In n (tp_nodes tp) -> In a (tn_atts n) ->
    0 <= a_cost a /\ In (a_dst a) (map te_key (tp_ends tp));
  tk_att_fam : forall n1 n2 a1 a2, In n1 (tp_nodes tp) -> In n2 (tp_nodes tp) ->
    In a1 (tn_atts n1) -> In a2 (tn_atts n2) -> a_dst a1 = a_dst a2 ->
    ev_fam ev (tn_orig n1) = ev_fam ev (tn_orig n2) }.

Definition neighs_ok (nbs : list neigh) : Prop :=
  forall nb, In nb nbs -> 0 <= nb_out nb /\ (forall h, In h (nb_2hop nb) -> 0 <= l2_out h).

(** Every node within reach can be reached with a cost that leaves room for
    one more link in 32 bits. *)
Definition costs_fit (ev : env) (tp : topo) (nbs : list neigh) : Prop :=
  forall af a w, path ev tp nbs af true true (TNode a) w ->
    exists w', path ev tp nbs af true true (TNode a) w' /\
               w_cost w' <= 4294967295 - METRIC_MAX.

(** Every node within reach is at most 255 hops away.  The hop limit of
    messages is a byte, so nodes further away cannot announce anything. *)
Definition near (ev : env) (tp : topo) (nbs : list neigh) : Prop :=
  forall af a w, path ev tp nbs af true true (TNode a) w ->
    exists w', path ev tp nbs af true true (TNode a) w' /\ w_hops w' <= 255.

(** Model of the route calculation of OLSRv2
    (src/olsrv2/olsrv2/olsrv2_routing.c).

    Addresses ([struct netaddr]) and route keys ([struct os_route_key],
    destination and source prefix) are opaque numbers: the code only
    compares them, looks them up and passes them to predicates of other
    modules.  These predicates are fields of [env].  The order of the keys
    is the order of the numbers; it only decides in which order tables are
    walked. *)
From Verif Require Import Base.

(** rfc7181 constants (include/oonf/librfc5444/rfc5444_iana.h and
    rfc7181 metric header): largest usable link metric and infinite path. *)
Definition METRIC_MAX : Z := 16776960.           (* 0xffff00 *)
Definition METRIC_INFINITE_PATH : Z := 4294967295. (* 0xffffffff *)
Definition AF_INET : Z := 2.
Definition AF_INET6 : Z := 10.

(** struct olsrv2_tc_edge (include/oonf/olsrv2/olsrv2/olsrv2_tc.h:171-197):
    destination (by originator), cost in the domain of the calculation,
    virtual flag. *)
Record tc_edge := TcEdge { e_dst : Z; e_cost : Z; e_virtual : bool }.

(** struct olsrv2_tc_attachment (olsrv2_tc.h:203-223): endpoint (by route
    key), cost and distance in the domain of the calculation. *)
Record tc_att := TcAtt { a_dst : Z; a_cost : Z; a_dist : Z }.

(** struct olsrv2_tc_node (olsrv2_tc.h:131-165): originator, source
    specific flag, ss_attached_networks of the domain, edges and attached
    networks in the order of their trees.  The embedded target prefix is
    the host route of the originator (olsrv2_tc.c:178) and computed with
    [ev_host]. *)
Record tc_node := TcNode {
  tn_orig : Z; tn_ss : bool; tn_ss_nets : bool;
  tn_edges : list tc_edge; tn_atts : list tc_att }.

(** struct olsrv2_tc_endpoint (olsrv2_tc.h:231-240): route key and the
    originator stored by olsrv2_routing_dijkstra_node_init
    (olsrv2_tc.c:388).  The number of attachments ([_attached_networks.count])
    is counted in the nodes, see [att_count]. *)
Record tc_end := TcEnd { te_key : Z; te_orig : Z }.

(** The trees _tc_tree and _tc_endpoint_tree (olsrv2_tc.c:110-111). *)
Record topo := Topo { tp_nodes : list tc_node; tp_ends : list tc_end }.

(** A pointer to a struct olsrv2_tc_target: a node is identified by its
    originator, an endpoint by its key (both are unique in their tree). *)
Inductive target := TNode (a : Z) | TEnd (k : Z).

Definition target_eqb (x y : target) : bool :=
  match x, y with
  | TNode a, TNode b => a =? b
  | TEnd a, TEnd b => a =? b
  | _, _ => false
  end.

(** Two-hop address of a neighbor (struct nhdp_l2hop): address, result of
    nhdp_db_2hop_is_lost, outgoing metric of the domain. *)
Record l2hop := L2 { l2_addr : Z; l2_lost : bool; l2_out : Z }.

(** struct nhdp_neighbor with its data of the domain: originator, number of
    symmetric links, metrics, interface index and address of the best
    outgoing link, addresses, two-hop addresses of all links.
    nhdp_domain.c:1034-1075 sets the best link whenever the outgoing metric
    is smaller than infinite, so the fields exist when they are used. *)
Record neigh := Neigh {
  nb_orig : Z; nb_sym : Z; nb_in : Z; nb_out : Z; nb_if : Z; nb_gw : Z;
  nb_addrs : list Z; nb_2hop : list l2hop }.

(** Answers of other modules, constant during one calculation:
    netaddr_get_address_family of an address, os_routing_init_sourcespec_prefix,
    destination and source prefix length of a key, olsrv2_originator_get,
    nhdp_interface_addr_global_get, olsrv2_lan_get with the active flag and
    outgoing metric of the domain, olsrv2_is_routable,
    olsrv2_is_nhdp_routable, olsrv2_originator_is_local, and whether
    oonf_class_malloc can deliver a routing entry for a key. *)
Record env := Env {
  ev_fam : Z -> Z; ev_host : Z -> Z; ev_dst : Z -> Z; ev_srclen : Z -> Z;
  ev_originator : Z -> Z; ev_ifaddr : Z -> bool; ev_lan : Z -> option (bool * Z);
  ev_routable : Z -> bool; ev_nhdp_routable : Z -> bool;
  ev_local : Z -> bool; ev_mem : Z -> bool }.

(** struct olsrv2_dijkstra_node (olsrv2_routing.h:68-101) without the tree
    hook and the originator (constant per target). *)
Record dnode := DNode {
  d_cost : Z; d_hops : Z; d_dist : Z; d_first : option neigh;
  d_single : bool; d_last : Z; d_local : bool; d_done : bool }.

(** struct os_route_parameter without key, family and type: interface,
    gateway (0 is the unspecified address), metric, table, protocol and
    source address. *)
Record rparam := RParam {
  p_if : Z; p_gw : Z; p_metric : Z; p_table : Z; p_proto : Z; p_srcip : Z }.

(** struct olsrv2_routing_entry (olsrv2_routing.h:106-148).  [re_old] is None
    while the field _old is still zeroed memory: it has no address family
    then and differs from all parameters of real routes. *)
Record rentry := REntry {
  re_key : Z; re_cost : Z; re_hops : Z;
  re_orig : Z; re_next : Z; re_last : Z;
  re_set : bool; re_proc : bool; re_old : option rparam; re_p : rparam }.

Definition zero_param : rparam := RParam 0 0 0 0 0 0.

(** Dijkstra state: the dijkstra nodes, the working tree and the routing
    tree.  _dijkstra_working_tree is an AVL tree with duplicate keys, sorted
    by path cost; a new element is placed behind elements with the same key
    (proved of the tree in AvlProps.v), so it is modelled as a sorted list. *)
Record dstate := DState {
  dn : target -> dnode; wq : list target; rt : list rentry }.

Definition set_dn (f : target -> dnode) (t : target) (d : dnode) : target -> dnode :=
  fun t' => if target_eqb t' t then d else f t'.

(** avl_insert into the working tree. *)
Fixpoint wq_insert (f : target -> dnode) (t : target) (q : list target) : list target :=
  match q with
  | [] => [t]
  | x :: q' => if d_cost (f x) <=? d_cost (f t) then x :: wq_insert f t q' else t :: q
  end.

(** avl_remove from the working tree. *)
Definition wq_remove (t : target) (q : list target) : list target :=
  filter (fun x => negb (target_eqb x t)) q.

(** avl_is_node_added *)
Definition wq_mem (t : target) (q : list target) : bool := existsb (target_eqb t) q.

(** olsrv2_tc_node_get (olsrv2_tc.h:237-242) and the pointer edge->dst. *)
Definition find_node (tp : topo) (a : Z) : option tc_node :=
  find (fun n => tn_orig n =? a) (tp_nodes tp).
Definition find_end (tp : topo) (k : Z) : option tc_end :=
  find (fun e => te_key e =? k) (tp_ends tp).

(** [_attached_networks.count] of an endpoint: every attachment of a node is
    hooked into both trees (olsrv2_tc.c:379-385). *)
Definition att_count (tp : topo) (k : Z) : Z :=
  zlen (filter (fun a => a_dst a =? k) (flat_map tn_atts (tp_nodes tp))).

(** avl_find_element on the routing tree *)
Definition find_entry (l : list rentry) (k : Z) : option rentry :=
  find (fun e => re_key e =? k) l.

(** Write through a pointer to a routing entry. *)
Definition put_entry (l : list rentry) (e : rentry) : list rentry :=
  map (fun x => if re_key x =? re_key e then e else x) l.

(** avl_insert into the routing tree *)
Fixpoint insert_entry (l : list rentry) (e : rentry) : list rentry :=
  match l with
  | [] => [e]
  | x :: l' => if re_key x <? re_key e then x :: insert_entry l' e else e :: l
  end.

(** _add_entry (olsrv2_routing.c:519-550).  oonf_class_malloc zeroes the
    entry. *)
Definition add_entry (ev : env) (l : list rentry) (k : Z) : option (list rentry * rentry) :=
  match find_entry l k with
  | Some e => Some (l, e)
  | None =>
      if ev_mem ev k then
        let e := REntry k METRIC_INFINITE_PATH 255 0 0 0 false false None zero_param in
        Some (insert_entry l e, e)
      else None
  end.

(** The arguments of _update_routing_entry (olsrv2_routing.c:642-645). *)
Record rargs := RArgs {
  ra_key : Z; ra_orig : Z; ra_first : neigh; ra_dist : Z; ra_cost : Z;
  ra_hops : Z; ra_single : bool; ra_last : Z }.

(** _update_routing_entry (olsrv2_routing.c:642-729) *)
Definition update_routing_entry (ev : env) (l : list rentry) (a : rargs) : list rentry :=
  let k := ra_key a in
  if ev_originator ev (ev_fam ev (ev_dst ev k)) =? ev_dst ev k then l
  else if ev_ifaddr ev (ev_dst ev k) then l
  else if match ev_lan ev k with
          | Some (active, metric) => active && (metric <? ra_cost a)
          | None => false
          end then l
  else if negb (ev_routable ev (ev_dst ev k)) then l
  else match add_entry ev l k with
       | None => l
       | Some (l1, e) =>
           if re_set e && (re_cost e <? ra_cost a) then l1
           else
             let gw := if ra_single a && (nb_gw (ra_first a) =? ev_dst ev k)
                       then 0 else nb_gw (ra_first a) in
             put_entry l1
               (REntry k (ra_cost a) (ra_hops a) (ra_orig a) (nb_orig (ra_first a)) (ra_last a)
                  true (re_proc e) (re_old e)
                  (RParam (nb_if (ra_first a)) gw (ra_dist a)
                     (p_table (re_p e)) (p_proto (re_p e)) (p_srcip (re_p e))))
       end.

(** _insert_into_working_tree (olsrv2_routing.c:578-628) *)
Definition insert_into_working_tree (s : dstate) (t : target) (nb : neigh)
    (link_cost path_cost path_hops dist : Z) (single : bool) (last : Z) : dstate :=
  if METRIC_MAX <? link_cost then s
  else
    let n := dn s t in
    if d_local n || d_done n then s
    else
      let cost := u32 (path_cost + link_cost) in
      let hops := u8 (path_hops + 1) in
      if wq_mem t (wq s) && (d_cost n <=? cost) then s
      else
        let q := if wq_mem t (wq s) then wq_remove t (wq s) else wq s in
        let f := set_dn (dn s) t
                   (DNode cost hops dist (Some nb) single last (d_local n) (d_done n)) in
        DState f (wq_insert f t q) (rt s).

(** _prepare_routes (olsrv2_routing.c:735-743) *)
Definition prepare_routes (l : list rentry) : list rentry :=
  map (fun e => REntry (re_key e) (re_cost e) (re_hops e) (re_orig e) (re_next e) (re_last e)
                  false (re_proc e) (Some (re_p e)) (re_p e)) l.

(** _prepare_nodes (olsrv2_routing.c:748-769).  The local flag is only
    written for nodes; for endpoints it keeps its value. *)
Definition prepare_nodes (ev : env) (tp : topo) (f : target -> dnode) : target -> dnode :=
  fun t =>
    let d := f t in
    match t with
    | TNode a =>
        match find_node tp a with
        | Some _ => DNode METRIC_INFINITE_PATH 255 (d_dist d) None (d_single d) (d_last d)
                      (ev_local ev (ev_dst ev (ev_host ev a))) false
        | None => d
        end
    | TEnd k =>
        match find_end tp k with
        | Some _ => DNode METRIC_INFINITE_PATH 255 (d_dist d) None (d_single d) (d_last d)
                      (d_local d) false
        | None => d
        end
    end.

(** _check_ssnode_split (olsrv2_routing.c:778-805) *)
Definition check_ssnode_split (ev : env) (tp : topo) (af : Z) : bool :=
  let infam := filter (fun n => ev_fam ev (ev_dst ev (ev_host ev (tn_orig n))) =? af) (tp_nodes tp) in
  let full_count := u32 (zlen infam) in
  let ssnode_count := u32 (zlen (filter tn_ss infam)) in
  let ssnode_prefix := existsb tn_ss_nets (tp_nodes tp) in
  negb (ssnode_count =? 0) && negb (ssnode_count =? full_count) && ssnode_prefix.

(** _add_one_hop_nodes (olsrv2_routing.c:815-852), loop body *)
Definition add_one_hop_node (ev : env) (tp : topo) (af : Z) (use_non_ss use_ss : bool)
    (s : dstate) (nb : neigh) : dstate :=
  if negb (ev_fam ev (nb_orig nb) =? af) then s
  else if nb_sym nb =? 0 then s
  else match find_node tp (nb_orig nb) with
       | None => s
       | Some node =>
           if negb use_non_ss && negb (tn_ss node && use_ss) then s
           else if (METRIC_MAX <? nb_in nb) || (METRIC_MAX <? nb_out nb) then s
           else insert_into_working_tree s (TNode (nb_orig nb)) nb (nb_out nb) 0 0 0 true
                  (ev_originator ev af)
       end.
Definition add_one_hop_nodes (ev : env) (tp : topo) (nbs : list neigh) (af : Z)
    (use_non_ss use_ss : bool) (s : dstate) : dstate :=
  fold_left (add_one_hop_node ev tp af use_non_ss use_ss) nbs s.

(** Prefix and stored originator of a target. *)
Definition target_key (ev : env) (t : target) : Z :=
  match t with TNode a => ev_host ev a | TEnd k => k end.
Definition target_orig (ev : env) (tp : topo) (t : target) : Z :=
  match t with
  | TNode a => ev_dst ev (ev_host ev a)
  | TEnd k => match find_end tp k with Some e => te_orig e | None => 0 end
  end.

(** _handle_working_queue (olsrv2_routing.c:861-938): the loop over the
    edges ... *)
Definition handle_edge (use_non_ss : bool) (ev : env) (node : tc_node) (d : dnode) (first : neigh)
    (s : dstate) (e : tc_edge) : dstate :=
  if negb (e_virtual e) && (e_cost e <=? METRIC_MAX) then
    if negb use_non_ss && negb (tn_ss node) then s
    else insert_into_working_tree s (TNode (e_dst e)) first (e_cost e)
           (d_cost d) (d_hops d) 0 false (ev_dst ev (ev_host ev (tn_orig node)))
  else s.

(** ... the loop over the attached networks ... *)
Definition handle_att (use_non_ss use_ss : bool) (ev : env) (tp : topo) (node : tc_node)
    (d : dnode) (first : neigh) (s : dstate) (a : tc_att) : dstate :=
  if a_cost a <=? METRIC_MAX then
    if negb (if 0 <? ev_srclen ev (a_dst a) then use_ss else use_non_ss) then s
    else if 1 <? att_count tp (a_dst a) then
      insert_into_working_tree s (TEnd (a_dst a)) first (a_cost a)
        (d_cost d) (d_hops d) (a_dist a) false (ev_dst ev (ev_host ev (tn_orig node)))
    else
      let t := TEnd (a_dst a) in
      let n := dn s t in
      let f := set_dn (dn s) t
                 (DNode (d_cost n) (d_hops n) (d_dist n) (d_first n) (d_single n) (d_last n)
                    (d_local n) true) in
      DState f (wq s)
        (update_routing_entry ev (rt s)
           (RArgs (a_dst a) (ev_dst ev (ev_host ev (tn_orig node))) first (a_dist a)
              (u32 (d_cost d + a_cost a)) (u8 (d_hops d + 1)) false
              (ev_dst ev (ev_host ev (tn_orig node)))))
  else s.

(** ... and the whole function.  [None]: a NULL first hop or a dangling
    pointer would be dereferenced. *)
Definition handle_working_queue (ev : env) (tp : topo) (use_non_ss use_ss : bool)
    (s : dstate) : option dstate :=
  match wq s with
  | [] => None
  | t :: q =>
      let d := dn s t in
      let d' := DNode (d_cost d) (d_hops d) (d_dist d) (d_first d) (d_single d) (d_last d)
                  (d_local d) true in
      let f := set_dn (dn s) t d' in
      match d_first d with
      | None => None
      | Some first =>
          let r := if use_non_ss
                   then update_routing_entry ev (rt s)
                          (RArgs (target_key ev t) (target_orig ev tp t) first (d_dist d)
                             (d_cost d) (d_hops d) (d_single d) (d_last d))
                   else rt s in
          let s1 := DState f q r in
          match t with
          | TEnd _ => Some s1
          | TNode a =>
              match find_node tp a with
              | None => None
              | Some node =>
                  let s2 := fold_left (handle_edge use_non_ss ev node d' first) (tn_edges node) s1 in
                  Some (fold_left (handle_att use_non_ss use_ss ev tp node d' first)
                          (tn_atts node) s2)
              end
          end
      end
  end.

(** The loop of _run_dijkstra (olsrv2_routing.c:505-508).  [None] also
    stands for used up fuel; C50 shows that neither happens. *)
Fixpoint dijkstra_loop (fuel : nat) (ev : env) (tp : topo) (use_non_ss use_ss : bool)
    (s : dstate) : option dstate :=
  match wq s with
  | [] => Some s
  | _ :: _ =>
      match fuel with
      | O => None
      | S fuel' =>
          match handle_working_queue ev tp use_non_ss use_ss s with
          | None => None
          | Some s' => dijkstra_loop fuel' ev tp use_non_ss use_ss s'
          end
      end
  end.

(** _run_dijkstra (olsrv2_routing.c:499-511).  The fuel is the number of
    targets. *)
Definition run_dijkstra (ev : env) (tp : topo) (nbs : list neigh) (af : Z)
    (use_non_ss use_ss : bool) (s : dstate) : option dstate :=
  dijkstra_loop (length (tp_nodes tp) + length (tp_ends tp)) ev tp use_non_ss use_ss
    (add_one_hop_nodes ev tp nbs af use_non_ss use_ss s).

(** _handle_nhdp_routes (olsrv2_routing.c:944-1008): one address ... *)
Definition handle_nhdp_addr (ev : env) (nb : neigh) (l : list rentry) (addr : Z) : list rentry :=
  if negb (ev_nhdp_routable ev addr) then l
  else
    let orig := ev_originator ev (ev_fam ev (nb_orig nb)) in
    update_routing_entry ev l
      (RArgs (ev_host ev addr) orig nb 0 (nb_out nb) 1 true orig).

(** ... one two-hop address ([NETADDR_UNSPEC] is 0) ... *)
Definition handle_nhdp_2hop (ev : env) (nb : neigh) (l : list rentry) (h : l2hop) : list rentry :=
  if l2_lost h then l
  else if METRIC_MAX <? l2_out h then l
  else update_routing_entry ev l
         (RArgs (ev_host ev (l2_addr h)) 0 nb 0 (u32 (l2_out h + nb_out nb)) 2 false (nb_orig nb)).

(** ... one neighbor ... *)
Definition handle_nhdp_neigh (ev : env) (l : list rentry) (nb : neigh) : list rentry :=
  if (nb_sym nb =? 0) || (METRIC_MAX <? nb_out nb) then l
  else fold_left (handle_nhdp_2hop ev nb) (nb_2hop nb)
         (fold_left (handle_nhdp_addr ev nb) (nb_addrs nb) l).

(** ... and the whole function. *)
Definition handle_nhdp_routes (ev : env) (nbs : list neigh) (l : list rentry) : list rentry :=
  fold_left (handle_nhdp_neigh ev) nbs l.

Definition obind {A B} (x : option A) (f : A -> option B) : option B :=
  match x with Some a => f a | None => None end.

(** The part of olsrv2_routing_force_update (olsrv2_routing.c:338-366) which
    calculates the routes of one domain. *)
Definition calculate_routes (ev : env) (tp : topo) (nbs : list neigh)
    (f : target -> dnode) (l : list rentry) : option (list rentry * (target -> dnode)) :=
  let s0 := DState (prepare_nodes ev tp f) [] (prepare_routes l) in
  let splitv4 := check_ssnode_split ev tp AF_INET in
  obind (run_dijkstra ev tp nbs AF_INET true (negb splitv4) s0) (fun s1 =>
  let splitv6 := check_ssnode_split ev tp AF_INET6 in
  obind (run_dijkstra ev tp nbs AF_INET6 true (negb splitv6) s1) (fun s2 =>
  obind (if splitv4 || splitv6 then
           let s3 := DState (prepare_nodes ev tp (dn s2)) (wq s2) (rt s2) in
           obind (if splitv4 then run_dijkstra ev tp nbs AF_INET false true s3 else Some s3)
             (fun s4 => if splitv6 then run_dijkstra ev tp nbs AF_INET6 false true s4 else Some s4)
         else Some s2) (fun s5 =>
  Some (handle_nhdp_routes ev nbs (rt s5), dn s5)))).

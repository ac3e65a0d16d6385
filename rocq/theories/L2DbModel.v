(** The layer-2 database: src/base/oonf_layer2.c (networks, neighbors,
    destinations, addresses, origins).

    The trees are tables from key to content; the order of the elements of a
    tree is not modelled (it only decides which of several equally good results
    of [best_neighbor_match] is taken).  Names of networks are compared exactly
    (the code ignores upper and lower case).  Objects are identified by the path
    of keys under which they are stored; a call for an object that is not in its
    tree is a call that does nothing.  Memory does not run out.  The interface
    listener, the next hops and the time a neighbor was last seen are left out. *)
From Verif Require Import Base NetaddrModel StrBase L2DataModel.

(** * Tables *)
Fixpoint tfind {K V} (eqb : K -> K -> bool) (t : list (K * V)) (k : K) : option V :=
  match t with [] => None | (x, v) :: t' => if eqb x k then Some v else tfind eqb t' k end.
Fixpoint tset {K V} (eqb : K -> K -> bool) (t : list (K * V)) (k : K) (v : V) : list (K * V) :=
  match t with [] => [(k, v)] | (x, w) :: t' => if eqb x k then (x, v) :: t' else (x, w) :: tset eqb t' k v end.
Definition tdel {K V} (eqb : K -> K -> bool) (t : list (K * V)) (k : K) : list (K * V) :=
  filter (fun e => negb (eqb (fst e) k)) t.
Definition keys {K V} (t : list (K * V)) : list K := map fst t.

Definition key_eqb (a b : nkey) : bool :=
  na_eqb (k_addr a) (k_addr b) && (k_len a =? k_len b) && str_eqb (k_lid a) (k_lid b).

(** * State *)

(** oonf_layer2.h [struct oonf_layer2_neigh]: data, destinations with origin,
    addresses of the neighbor with origin *)
Record neigh := mkNeigh { ne_data : list data; ne_dst : list (netaddr * Z); ne_ips : list (netaddr * Z) }.
(** oonf_layer2.h [struct oonf_layer2_net]: data of the network, default data of
    its neighbors, neighbors, addresses of the local peer with origin *)
Record net := mkNet { nt_data : list data; nt_ndata : list data;
                      nt_neighs : list (nkey * neigh); nt_peers : list (netaddr * Z) }.

(** the objects users can listen to (the five memory classes of
    oonf_layer2.c:160-179), named by network, neighbor and address *)
Inductive obj :=
  | ONet (n : bytes) | ONeigh (n : bytes) (k : nkey)
  | ODst (n : bytes) (k : nkey) (a : netaddr) | OIp (n : bytes) (k : nkey) (a : netaddr)
  | OPeer (n : bytes) (a : netaddr).
Inductive kind := Added | Removed | Changed.

(** [nets]: _oonf_layer2_net_tree; [rips]: the trees [remote_neighbor_ips] of all
    networks; [gips]: _local_peer_ips_tree; [log]: the events sent so far *)
Record db := mkDb { nets : list (bytes * net); rips : list (bytes * nkey * netaddr);
                    gips : list (bytes * netaddr); log : list (kind * obj) }.
Definition db0 : db := mkDb [] [] [] [].

Definition emit (d : db) (k : kind) (x : obj) : db := mkDb (nets d) (rips d) (gips d) (log d ++ [(k, x)]).
Definition net_at (d : db) (n : bytes) : option net := tfind str_eqb (nets d) n.
Definition ne_at (d : db) (n : bytes) (k : nkey) : option neigh :=
  match net_at d n with Some nt => tfind key_eqb (nt_neighs nt) k | None => None end.
Definition upd_net (d : db) (n : bytes) (f : net -> net) : db :=
  match net_at d n with
  | Some nt => mkDb (tset str_eqb (nets d) n (f nt)) (rips d) (gips d) (log d)
  | None => d
  end.
Definition upd_neigh (d : db) (n : bytes) (k : nkey) (f : neigh -> neigh) : db :=
  upd_net d n (fun nt =>
    match tfind key_eqb (nt_neighs nt) k with
    | Some ne => mkNet (nt_data nt) (nt_ndata nt) (tset key_eqb (nt_neighs nt) k (f ne)) (nt_peers nt)
    | None => nt
    end).

(** avl_remove from the tree of all neighbor addresses of the network, from the tree of all peer addresses *)
Fixpoint del_rip (l : list (bytes * nkey * netaddr)) (n : bytes) (k : nkey) (a : netaddr) : list (bytes * nkey * netaddr) :=
  match l with
  | [] => []
  | (n', k', a') :: l' => if str_eqb n' n && key_eqb k' k && na_eqb a' a then l' else (n', k', a') :: del_rip l' n k a
  end.
Fixpoint del_gip (l : list (bytes * netaddr)) (n : bytes) (a : netaddr) : list (bytes * netaddr) :=
  match l with
  | [] => []
  | (n', a') :: l' => if str_eqb n' n && na_eqb a' a then l' else (n', a') :: del_gip l' n a
  end.

(** * Destinations and addresses *)

(** oonf_layer2.c:1122-1131 [oonf_layer2_destination_remove] *)
Definition dst_remove (d : db) (n : bytes) (k : nkey) (a : netaddr) : db :=
  match ne_at d n k with
  | Some ne =>
    match tfind na_eqb (ne_dst ne) a with
    | Some _ => upd_neigh (emit d Removed (ODst n k a)) n k (fun ne => mkNeigh (ne_data ne) (tdel na_eqb (ne_dst ne) a) (ne_ips ne))
    | None => d
    end
  | None => d
  end.
(** oonf_layer2.c:1088-1116 [oonf_layer2_destination_add]: an existing destination keeps its origin *)
Definition dst_add (d : db) (n : bytes) (k : nkey) (a : netaddr) (o : Z) : db :=
  match ne_at d n k with
  | Some ne =>
    match tfind na_eqb (ne_dst ne) a with
    | Some _ => d
    | None => emit (upd_neigh d n k (fun ne => mkNeigh (ne_data ne) (tset na_eqb (ne_dst ne) a o) (ne_ips ne))) Added (ODst n k a)
    end
  | None => d
  end.
(** oonf_layer2.c:1066-1078 [oonf_layer2_neigh_remove_ip]: true is the return value 0 *)
Definition ip_remove (d : db) (n : bytes) (k : nkey) (a : netaddr) (o : Z) : bool * db :=
  match ne_at d n k with
  | Some ne =>
    match tfind na_eqb (ne_ips ne) a with
    | Some own =>
      if negb (own =? o) then (false, d)
      else
        let d1 := upd_neigh (emit d Removed (OIp n k a)) n k (fun ne => mkNeigh (ne_data ne) (ne_dst ne) (tdel na_eqb (ne_ips ne) a)) in
        (true, mkDb (nets d1) (del_rip (rips d1) n k a) (gips d1) (log d1))
    | None => (false, d)
    end
  | None => (false, d)
  end.
(** oonf_layer2.c:1025-1058 [oonf_layer2_neigh_add_ip] *)
Definition ip_add (d : db) (n : bytes) (k : nkey) (o : Z) (a : netaddr) : db :=
  match ne_at d n k with
  | Some ne =>
    let d1 := upd_neigh d n k (fun ne => mkNeigh (ne_data ne) (ne_dst ne) (tset na_eqb (ne_ips ne) a o)) in
    match tfind na_eqb (ne_ips ne) a with
    | Some _ => d1
    | None => emit (mkDb (nets d1) (rips d1 ++ [(n, k, a)]) (gips d1) (log d1)) Added (OIp n k a)
    end
  | None => d
  end.
(** oonf_layer2.c:720-732 [oonf_layer2_net_remove_ip] *)
Definition peer_remove (d : db) (n : bytes) (a : netaddr) (o : Z) : bool * db :=
  match net_at d n with
  | Some nt =>
    match tfind na_eqb (nt_peers nt) a with
    | Some own =>
      if negb (own =? o) then (false, d)
      else
        let d1 := upd_net (emit d Removed (OPeer n a)) n (fun nt => mkNet (nt_data nt) (nt_ndata nt) (nt_neighs nt) (tdel na_eqb (nt_peers nt) a)) in
        (true, mkDb (nets d1) (rips d1) (del_gip (gips d1) n a) (log d1))
    | None => (false, d)
    end
  | None => (false, d)
  end.
(** oonf_layer2.c:682-712 [oonf_layer2_net_add_ip] *)
Definition peer_add (d : db) (n : bytes) (o : Z) (a : netaddr) : db :=
  match net_at d n with
  | Some nt =>
    let d1 := upd_net d n (fun nt => mkNet (nt_data nt) (nt_ndata nt) (nt_neighs nt) (tset na_eqb (nt_peers nt) a o)) in
    match tfind na_eqb (nt_peers nt) a with
    | Some _ => d1
    | None => emit (mkDb (nets d1) (rips d1) (gips d1 ++ [(n, a)]) (log d1)) Added (OPeer n a)
    end
  | None => d
  end.

(** * Neighbors *)

(** oonf_layer2.c:1519-1540 [_neigh_remove] *)
Definition del_neigh (d : db) (n : bytes) (k : nkey) : db :=
  match ne_at d n k with
  | None => d
  | Some ne =>
    let d1 := fold_left (fun d a => dst_remove d n k a) (keys (ne_dst ne)) d in
    let d2 := fold_left (fun d e => snd (ip_remove d n k (fst e) (snd e))) (ne_ips ne) d1 in
    upd_net (emit d2 Removed (ONeigh n k)) n
      (fun nt => mkNet (nt_data nt) (nt_ndata nt) (tdel key_eqb (nt_neighs nt) k) (nt_peers nt))
  end.

(** the data objects of an origin *)
Definition owned (o : Z) (x : data) : bool := match d_org x with Some own => own =? o | None => false end.
Definition wipe (o : Z) (l : list data) : list data := map (fun x => if owned o x then data_reset x else x) l.

(** oonf_layer2.c:867-879 [oonf_layer2_neigh_cleanup] *)
Definition neigh_cleanup (d : db) (n : bytes) (k : nkey) (o : Z) : bool * db :=
  match ne_at d n k with
  | None => (false, d)
  | Some ne => (existsb (owned o) (ne_data ne),
                upd_neigh d n k (fun ne => mkNeigh (wipe o (ne_data ne)) (ne_dst ne) (ne_ips ne)))
  end.
(** oonf_layer2.c:928-947 [oonf_layer2_neigh_commit]: true if the neighbor was removed *)
Definition neigh_commit (d : db) (n : bytes) (k : nkey) : bool * db :=
  match ne_at d n k with
  | None => (false, d)
  | Some ne =>
    if (match ne_dst ne, ne_ips ne with [], [] => false | _, _ => true end) || existsb has_value (ne_data ne)
    then (false, emit d Changed (ONeigh n k))
    else (true, del_neigh d n k)
  end.
(** oonf_layer2.c:888-920 [oonf_layer2_neigh_remove]: true if something changed *)
Definition neigh_remove (d : db) (n : bytes) (k : nkey) (o : Z) : bool * db :=
  match ne_at d n k with
  | None => (false, d)
  | Some ne =>
    let '(c1, d1) := fold_left (fun '(c, d) e => if snd e =? o then (true, dst_remove d n k (fst e)) else (c, d)) (ne_dst ne) (false, d) in
    let '(c2, d2) := fold_left (fun '(c, d) e => let '(r, d') := ip_remove d n k (fst e) o in (c || r, d')) (ne_ips ne) (c1, d1) in
    let '(r3, d3) := neigh_cleanup d2 n k o in
    let c3 := c2 || r3 in
    if c3 then (true, snd (neigh_commit d3 n k)) else (false, d3)
  end.
(** oonf_layer2.c:956-980 [oonf_layer2_neigh_relabel] *)
Definition relabel_data (onew old : Z) (x : data) : data :=
  if owned old x then mkData (d_val x) (d_meta x) (Some onew) else x.
Definition relabel_org (onew old : Z) (e : netaddr * Z) : netaddr * Z :=
  if snd e =? old then (fst e, onew) else e.
Definition relabel_neigh (onew old : Z) (ne : neigh) : neigh :=
  mkNeigh (map (relabel_data onew old) (ne_data ne)) (map (relabel_org onew old) (ne_dst ne)) (map (relabel_org onew old) (ne_ips ne)).

(** fresh data with the metadata of its index *)
Definition fresh_neigh_data : list data := map (fun i => mkData 0 (neigh_meta i) None) (zrange 0 26).
Definition fresh_net_data : list data := map (fun i => mkData 0 (net_meta i) None) (zrange 0 16).

(** oonf_layer2.c:822-858 [oonf_layer2_neigh_add_lid] *)
Definition neigh_add (d : db) (n : bytes) (k : nkey) : db :=
  if negb (is_mac (k_addr k)) then d
  else match net_at d n with
  | None => d
  | Some nt =>
    match tfind key_eqb (nt_neighs nt) k with
    | Some _ => d
    | None => emit (upd_net d n (fun nt => mkNet (nt_data nt) (nt_ndata nt) (tset key_eqb (nt_neighs nt) k (mkNeigh fresh_neigh_data [] [])) (nt_peers nt)))
                Added (ONeigh n k)
    end
  end.

(** * Networks *)

(** oonf_layer2.c:489-536 [oonf_layer2_net_add]: the name is cut to 15 characters
    (IF_NAMESIZE is 16) after the lookup; if the cut name is in the tree already,
    avl_insert fails, which is not checked: the event is sent for an object that
    is not in the tree *)
Definition net_add (d : db) (name : bytes) : db :=
  match net_at d name with
  | Some _ => d
  | None =>
    let n := firstn 15 name in
    match net_at d n with
    | Some _ => emit d Added (ONet n)
    | None => emit (mkDb (tset str_eqb (nets d) n (mkNet fresh_net_data fresh_neigh_data [] [])) (rips d) (gips d) (log d)) Added (ONet n)
    end
  end.
(** oonf_layer2.c:1490-1513 [_net_remove] *)
Definition del_net (d : db) (n : bytes) : db :=
  match net_at d n with
  | None => d
  | Some nt =>
    let d1 := fold_left (fun d k => del_neigh d n k) (keys (nt_neighs nt)) d in
    let d2 := fold_left (fun d e => snd (peer_remove d n (fst e) (snd e))) (nt_peers nt) d1 in
    let d3 := emit d2 Removed (ONet n) in
    mkDb (tdel str_eqb (nets d3) n) (rips d3) (gips d3) (log d3)
  end.
(** oonf_layer2.c:546-571 [oonf_layer2_net_cleanup] *)
Definition net_cleanup (d : db) (n : bytes) (o : Z) (cleanup_neigh : bool) : bool * db :=
  match net_at d n with
  | None => (false, d)
  | Some nt =>
    let c := existsb (owned o) (nt_data nt) || existsb (owned o) (nt_ndata nt) in
    let d1 := upd_net d n (fun nt => mkNet (wipe o (nt_data nt)) (wipe o (nt_ndata nt)) (nt_neighs nt) (nt_peers nt)) in
    if cleanup_neigh
    then fold_left (fun '(c, d) k => let '(r, d') := neigh_cleanup d n k o in (c || r, d')) (keys (nt_neighs nt)) (c, d1)
    else (c, d1)
  end.
(** oonf_layer2.c:611-636 [oonf_layer2_net_commit] *)
Definition net_commit (d : db) (n : bytes) : bool * db :=
  match net_at d n with
  | None => (false, d)
  | Some nt =>
    if (match nt_neighs nt with [] => false | _ => true end) || existsb has_value (nt_data nt) || existsb has_value (nt_ndata nt)
    then (false, emit d Changed (ONet n))
    else (true, del_net d n)
  end.
(** oonf_layer2.c:580-603 [oonf_layer2_net_remove] *)
Definition net_remove (d : db) (n : bytes) (o : Z) : bool * db :=
  match net_at d n with
  | None => (false, d)
  | Some nt =>
    let '(c1, d1) := fold_left (fun '(c, d) k => let '(r, d') := neigh_remove d n k o in (c || r, d')) (keys (nt_neighs nt)) (false, d) in
    let '(r2, d2) := net_cleanup d1 n o false in
    if c1 || r2 then (true, snd (net_commit d2 n)) else (false, d2)
  end.
(** oonf_layer2.c:645-673 [oonf_layer2_net_relabel] *)
Definition net_relabel (d : db) (n : bytes) (onew old : Z) : db :=
  upd_net d n (fun nt => mkNet (map (relabel_data onew old) (nt_data nt)) (map (relabel_data onew old) (nt_ndata nt))
                               (map (fun e => (fst e, relabel_neigh onew old (snd e))) (nt_neighs nt))
                               (map (relabel_org onew old) (nt_peers nt))).
(** oonf_layer2.c:261-273 [oonf_layer2_origin_remove] of a registered origin *)
Definition origin_remove (d : db) (o : Z) : db :=
  fold_left (fun d n => snd (net_remove d n o)) (keys (nets d)) d.
(** oonf_layer2.c:222-239 [_cleanup] *)
Definition shutdown (d : db) : db := fold_left (fun d n => del_net d n) (keys (nets d)) d.

(** * Writing and reading values *)
Inductive place := PNet (n : bytes) | PDef (n : bytes) | PNeigh (n : bytes) (k : nkey).
Definition arr_at (d : db) (p : place) : option (list data) :=
  match p with
  | PNet n => option_map nt_data (net_at d n)
  | PDef n => option_map nt_ndata (net_at d n)
  | PNeigh n k => option_map ne_data (ne_at d n k)
  end.
Definition upd_arr (d : db) (p : place) (l : list data) : db :=
  match p with
  | PNet n => upd_net d n (fun nt => mkNet l (nt_ndata nt) (nt_neighs nt) (nt_peers nt))
  | PDef n => upd_net d n (fun nt => mkNet (nt_data nt) l (nt_neighs nt) (nt_peers nt))
  | PNeigh n k => upd_neigh d n k (fun ne => mkNeigh l (ne_dst ne) (ne_ips ne))
  end.
(** oonf_layer2.c:341-359 on the data object [i] of [p]; an index outside of the array is a fault *)
Definition set_value (prio : Z -> Z) (d : db) (p : place) (i o : Z) (m : option meta) (v : Z) : option db :=
  match arr_at d p with
  | None => Some d
  | Some l =>
    match zget l i with
    | None => None
    | Some x =>
      match data_set prio x o m v with
      | None => None
      | Some (_, x') => match zset l i x' with None => None | Some l' => Some (upd_arr d p l') end
      end
    end
  end.

(** oonf_layer2.c:1141-1173 [oonf_layer2_neigh_query]; the neighbor is the one without link id *)
Definition plain_key (a : netaddr) : nkey := mkKey a 0 (repeat 0 16).
Definition value_or (l : list data) (i : Z) : option data :=
  match zget l i with Some x => if has_value x then Some x else None | None => None end.
Definition neigh_query (d : db) (n : bytes) (a : netaddr) (i : Z) (get_default : bool) : option data :=
  match net_at d n with
  | None => None
  | Some nt =>
    match (match tfind key_eqb (nt_neighs nt) (plain_key a) with Some ne => value_or (ne_data ne) i | None => None end) with
    | Some x => Some x
    | None => if get_default then value_or (nt_ndata nt) i else None
    end
  end.
(** oonf_layer2.c:1208-1223 [oonf_layer2_neigh_get_data] *)
Definition neigh_get_data (d : db) (n : bytes) (k : nkey) (i : Z) : option data :=
  match net_at d n, ne_at d n k with
  | Some nt, Some ne => match value_or (ne_data ne) i with Some x => Some x | None => value_or (nt_ndata nt) i end
  | _, _ => None
  end.

(** oonf_layer2.c:740-761 [oonf_layer2_net_get_best_neighbor_match]; [None] is a fault of the subnet test *)
Definition all_ips (d : db) : list (bytes * nkey * netaddr) :=
  flat_map (fun e => flat_map (fun f => map (fun g => (fst e, fst f, fst g)) (ne_ips (snd f))) (nt_neighs (snd e))) (nets d).
Fixpoint best_loop (l : list (bytes * nkey * netaddr)) (addr : netaddr) (best : option (bytes * nkey * netaddr)) (len : Z)
  : option (option (bytes * nkey * netaddr)) :=
  match l with
  | [] => Some best
  | x :: l' =>
    match is_in_subnet (snd x) addr with
    | None => None
    | Some b => if b && (na_plen (snd x) <? len) then best_loop l' addr (Some x) (na_plen (snd x)) else best_loop l' addr best len
    end
  end.
Definition best_neighbor_match (d : db) (addr : netaddr) : option (option (bytes * nkey * netaddr)) :=
  best_loop (all_ips d) addr None 256.

(** * Calls *)
Inductive op :=
  | NetAdd (n : bytes) | NetCommit (n : bytes) | NetCleanup (n : bytes) (o : Z) (neighs : bool) | NetRemove (n : bytes) (o : Z)
  | NetRelabel (n : bytes) (onew old : Z) | PeerAdd (n : bytes) (o : Z) (a : netaddr) | PeerRemove (n : bytes) (a : netaddr) (o : Z)
  | NeighAdd (n : bytes) (k : nkey) | NeighCommit (n : bytes) (k : nkey) | NeighCleanup (n : bytes) (k : nkey) (o : Z)
  | NeighRemove (n : bytes) (k : nkey) (o : Z) | NeighRelabel (n : bytes) (k : nkey) (onew old : Z)
  | IpAdd (n : bytes) (k : nkey) (o : Z) (a : netaddr) | IpRemove (n : bytes) (k : nkey) (a : netaddr) (o : Z)
  | DstAdd (n : bytes) (k : nkey) (a : netaddr) (o : Z) | DstRemove (n : bytes) (k : nkey) (a : netaddr)
  | SetValue (p : place) (i o : Z) (m : option meta) (v : Z) | OriginRemove (o : Z) | Shutdown.
Definition step (prio : Z -> Z) (d : db) (c : op) : option db :=
  match c with
  | NetAdd n => Some (net_add d n)
  | NetCommit n => Some (snd (net_commit d n))
  | NetCleanup n o b => Some (snd (net_cleanup d n o b))
  | NetRemove n o => Some (snd (net_remove d n o))
  | NetRelabel n onew old => Some (net_relabel d n onew old)
  | PeerAdd n o a => Some (peer_add d n o a)
  | PeerRemove n a o => Some (snd (peer_remove d n a o))
  | NeighAdd n k => Some (neigh_add d n k)
  | NeighCommit n k => Some (snd (neigh_commit d n k))
  | NeighCleanup n k o => Some (snd (neigh_cleanup d n k o))
  | NeighRemove n k o => Some (snd (neigh_remove d n k o))
  | NeighRelabel n k onew old => Some (upd_neigh d n k (relabel_neigh onew old))
  | IpAdd n k o a => Some (ip_add d n k o a)
  | IpRemove n k a o => Some (snd (ip_remove d n k a o))
  | DstAdd n k a o => Some (dst_add d n k a o)
  | DstRemove n k a => Some (dst_remove d n k a)
  | SetValue p i o m v => set_value prio d p i o m v
  | OriginRemove o => Some (origin_remove d o)
  | Shutdown => Some (shutdown d)
  end.
Fixpoint run (prio : Z -> Z) (d : db) (cs : list op) : option db :=
  match cs with [] => Some d | c :: cs' => match step prio d c with None => None | Some d' => run prio d' cs' end end.

(** Model of the topology database of OLSRv2 (src/olsrv2/olsrv2/olsrv2_tc.c) and
    of the processing of TC messages (src/olsrv2/olsrv2/olsrv2_reader.c).

    Objects live in heaps (number of the object -> content), a freed object is
    gone from its heap; [None] as result of a function is a use of an object that
    is not there, the removal of an object from a tree it is not in, or an access
    outside of an array.  Trees are lists of objects in the order of their keys.
    A loop with a safe iterator visits the objects that are in the tree at its
    begin; when one of these has gone in the meantime this is [None] too.

    Simplifications: memory allocation always succeeds.  Addresses and route keys
    are numbers in the order of their comparators (C02); the route key of an
    attached network (os_routing_init_sourcespec_prefix, netaddr_truncate, source
    prefix TLV) comes with the message.  Object events are not modelled, and
    neither are the flags [source_specific] and [ss_attached_networks]. *)
From Verif Require Import Base CodecModel.
From Verif Require DomModel.

Notation "'do' x <- a ; b" := (match a with Some x => b | None => None end)
  (at level 200, x pattern, a at level 100, b at level 200).
Notation MAXDOM := DomModel.MAXDOM.

Definition heap (A : Type) : Type := Z -> option A.
Definition hset {A} (h : heap A) (k : Z) (v : option A) : heap A := fun j => if j =? k then v else h j.

(** olsrv2_tc.h:112-144 [struct olsrv2_tc_node]; [n_valid] is the time the
    validity timer was last set to, [None] when it is not active *)
Record tnode := mkTN { n_addr : Z; n_ansn : Z; n_valid : option Z; n_itime : Z; n_direct : bool;
                       n_edges : list Z; n_atts : list Z }.
(** olsrv2_tc.h:149-175 [struct olsrv2_tc_edge] *)
Record tedge := mkTE { e_src : Z; e_dst : Z; e_inv : Z; e_cost : list Z; e_ansn : Z; e_virt : bool }.
(** olsrv2_tc.h:181-203 [struct olsrv2_tc_attachment] *)
Record tatt := mkTA { a_src : Z; a_dst : Z; a_cost : list Z; a_dist : list Z; a_ansn : Z }.
(** olsrv2_tc.h:211-220 [struct olsrv2_tc_endpoint]; [p_orig] is the node that
    [target._dijkstra.originator] points into (olsrv2_routing.c:384-387) *)
Record tep := mkTP { p_key : Z; p_mesh : bool; p_orig : Z; p_atts : list Z }.

(** The database; [d_log] has the calls of olsrv2_routing_domain_changed
    ([None]: all domains) *)
Record db := mkDb { d_nodes : heap tnode; d_tree : list Z; d_edges : heap tedge;
                    d_atts : heap tatt; d_eps : heap tep; d_eptree : list Z;
                    d_next : Z; d_log : list (option Z) }.

Definition set_nodes (d : db) h := mkDb h (d_tree d) (d_edges d) (d_atts d) (d_eps d) (d_eptree d) (d_next d) (d_log d).
Definition set_tree (d : db) t := mkDb (d_nodes d) t (d_edges d) (d_atts d) (d_eps d) (d_eptree d) (d_next d) (d_log d).
Definition set_edges (d : db) h := mkDb (d_nodes d) (d_tree d) h (d_atts d) (d_eps d) (d_eptree d) (d_next d) (d_log d).
Definition set_atts (d : db) h := mkDb (d_nodes d) (d_tree d) (d_edges d) h (d_eps d) (d_eptree d) (d_next d) (d_log d).
Definition set_eps (d : db) h := mkDb (d_nodes d) (d_tree d) (d_edges d) (d_atts d) h (d_eptree d) (d_next d) (d_log d).
Definition set_eptree (d : db) t := mkDb (d_nodes d) (d_tree d) (d_edges d) (d_atts d) (d_eps d) t (d_next d) (d_log d).
Definition bump (d : db) n := mkDb (d_nodes d) (d_tree d) (d_edges d) (d_atts d) (d_eps d) (d_eptree d) (d_next d + n) (d_log d).
(** olsrv2_routing.c:283-296 [olsrv2_routing_domain_changed] *)
Definition changed (d : db) (x : option Z) :=
  mkDb (d_nodes d) (d_tree d) (d_edges d) (d_atts d) (d_eps d) (d_eptree d) (d_next d) (d_log d ++ [x]).

(** write to an object; it has to be there *)
Definition put_node (d : db) (n : Z) (f : tnode -> tnode) : option db :=
  do x <- d_nodes d n ; Some (set_nodes d (hset (d_nodes d) n (Some (f x)))).
Definition put_edge (d : db) (e : Z) (f : tedge -> tedge) : option db :=
  do x <- d_edges d e ; Some (set_edges d (hset (d_edges d) e (Some (f x)))).
Definition put_att (d : db) (a : Z) (f : tatt -> tatt) : option db :=
  do x <- d_atts d a ; Some (set_atts d (hset (d_atts d) a (Some (f x)))).
Definition put_ep (d : db) (p : Z) (f : tep -> tep) : option db :=
  do x <- d_eps d p ; Some (set_eps d (hset (d_eps d) p (Some (f x)))).

Definition nd_ansn a (x : tnode) := mkTN (n_addr x) a (n_valid x) (n_itime x) (n_direct x) (n_edges x) (n_atts x).
Definition nd_valid v (x : tnode) := mkTN (n_addr x) (n_ansn x) v (n_itime x) (n_direct x) (n_edges x) (n_atts x).
Definition nd_itime i (x : tnode) := mkTN (n_addr x) (n_ansn x) (n_valid x) i (n_direct x) (n_edges x) (n_atts x).
Definition nd_direct b (x : tnode) := mkTN (n_addr x) (n_ansn x) (n_valid x) (n_itime x) b (n_edges x) (n_atts x).
Definition nd_edges l (x : tnode) := mkTN (n_addr x) (n_ansn x) (n_valid x) (n_itime x) (n_direct x) l (n_atts x).
Definition nd_atts l (x : tnode) := mkTN (n_addr x) (n_ansn x) (n_valid x) (n_itime x) (n_direct x) (n_edges x) l.
Definition ed_cost c (x : tedge) := mkTE (e_src x) (e_dst x) (e_inv x) c (e_ansn x) (e_virt x).
Definition ed_ansn a (x : tedge) := mkTE (e_src x) (e_dst x) (e_inv x) (e_cost x) a (e_virt x).
Definition ed_virt b (x : tedge) := mkTE (e_src x) (e_dst x) (e_inv x) (e_cost x) (e_ansn x) b.
Definition at_cost c (x : tatt) := mkTA (a_src x) (a_dst x) c (a_dist x) (a_ansn x).
Definition at_dist c (x : tatt) := mkTA (a_src x) (a_dst x) (a_cost x) c (a_ansn x).
Definition at_ansn a (x : tatt) := mkTA (a_src x) (a_dst x) (a_cost x) (a_dist x) a.
Definition pt_orig o (x : tep) := mkTP (p_key x) (p_mesh x) o (p_atts x).
Definition pt_atts l (x : tep) := mkTP (p_key x) (p_mesh x) (p_orig x) l.

(** avl_find, avl_insert (without duplicates: [Some None] when the key is there)
    and avl_remove; the keys are read from the objects *)
Fixpoint tree_find (key : Z -> option Z) (l : list Z) (k : Z) : option (option Z) :=
  match l with
  | [] => Some None
  | x :: l' => do kx <- key x ; if kx =? k then Some (Some x) else tree_find key l' k
  end.
Fixpoint tree_ins (key : Z -> option Z) (id k : Z) (l : list Z) : option (option (list Z)) :=
  match l with
  | [] => Some (Some [id])
  | x :: l' =>
    do kx <- key x ;
    if kx =? k then Some None
    else if k <? kx then Some (Some (id :: l))
    else do r <- tree_ins key id k l' ; Some (option_map (cons x) r)
  end.
Definition tree_del (id : Z) (l : list Z) : option (list Z) :=
  if existsb (Z.eqb id) l then Some (filter (fun x => negb (x =? id)) l) else None.

(** the keys: olsrv2_tc.c:174, 275 and 289 (the address of the destination), 356,
    368 and 372 *)
Definition node_key (d : db) (n : Z) : option Z := do x <- d_nodes d n ; Some (n_addr x).
Definition edge_key (d : db) (e : Z) : option Z := do x <- d_edges d e ; node_key d (e_dst x).
Definition ep_key (d : db) (p : Z) : option Z := do x <- d_eps d p ; Some (p_key x).
Definition src_key (d : db) (a : Z) : option Z := do x <- d_atts d a ; ep_key d (a_dst x).
Definition end_key (d : db) (a : Z) : option Z := do x <- d_atts d a ; node_key d (a_src x).

(** oonf_timer_set: 0 stops the timer (C13) *)
Definition timer_set (v : Z) : option Z := if v =? 0 then None else Some v.

(** olsrv2_tc.h:237-242 [olsrv2_tc_node_get] *)
Definition node_get (d : db) (addr : Z) : option (option Z) := tree_find (node_key d) (d_tree d) addr.

(** olsrv2_tc.c:161-203 [olsrv2_tc_node_add] *)
Definition node_add (d : db) (addr vtime ansn : Z) : option (db * Z) :=
  do f <- node_get d addr ;
  match f with
  | None =>
    let n := d_next d in
    do t <- tree_ins (node_key d) n addr (d_tree d) ;
    do t' <- t ;
    Some (bump (set_nodes (set_tree d t')
                 (hset (d_nodes d) n (Some (mkTN addr ansn (timer_set vtime) 0 false [] [])))) 1, n)
  | Some n =>
    do x <- d_nodes d n ;
    do d1 <- (match n_valid x with None => put_node d n (nd_ansn ansn) | Some _ => Some d end) ;
    do d2 <- put_node d1 n (nd_valid (timer_set vtime)) ;
    Some (d2, n)
  end.

Definition no_cost : list Z := repeat METRIC_INFINITE (Z.to_nat MAXDOM).
Definition no_dist : list Z := repeat 0 (Z.to_nat MAXDOM).

(** hook an edge into the tree of a node; the result of avl_insert is not used *)
Definition hook_edge (d : db) (n e k : Z) : option db :=
  do x <- d_nodes d n ;
  do t <- tree_ins (edge_key d) e k (n_edges x) ;
  match t with
  | None => Some d
  | Some t => put_node d n (nd_edges t)
  end.

(** olsrv2_tc.c:246-319 [olsrv2_tc_edge_add] *)
Definition edge_add (d : db) (src addr : Z) : option (db * Z) :=
  do x <- d_nodes d src ;
  do f <- tree_find (edge_key d) (n_edges x) addr ;
  match f with
  | Some e =>
    do d1 <- put_edge d e (fun y => ed_cost no_cost (ed_virt false y)) ;
    Some (d1, e)
  | None =>
    let e := d_next d in
    let i := d_next d + 1 in
    let d0 := bump d 2 in
    do g <- node_get d0 addr ;
    do dn <- (match g with Some n => Some (d0, n) | None => node_add d0 addr 0 0 end) ;
    let '(d1, dst) := dn in
    do sx <- d_nodes d1 src ;
    do dx <- d_nodes d1 dst ;
    let d2 := set_edges d1 (hset (d_edges d1) e (Some (mkTE src dst i no_cost 0 false))) in
    do d3 <- hook_edge d2 src e (n_addr dx) ;
    let d4 := set_edges d3 (hset (d_edges d3) i (Some (mkTE dst src e no_cost 0 true))) in
    do d5 <- hook_edge d4 dst i (n_addr sx) ;
    Some (d5, e)
  end.

(** olsrv2_tc.c:405-428 [olsrv2_tc_endpoint_remove] *)
Definition endpoint_remove (d : db) (a : Z) : option db :=
  do x <- d_atts d a ;
  do n <- d_nodes d (a_src x) ;
  do l <- tree_del a (n_atts n) ;
  do d1 <- put_node d (a_src x) (nd_atts l) ;
  do p <- d_eps d1 (a_dst x) ;
  do m <- tree_del a (p_atts p) ;
  do d2 <- put_ep d1 (a_dst x) (pt_atts m) ;
  do d3 <- (match m with
            | [] => do t <- tree_del (a_dst x) (d_eptree d2) ;
                    Some (set_eps (set_eptree d2 t) (hset (d_eps d2) (a_dst x) None))
            | _ => Some d2
            end) ;
  Some (changed (set_atts d3 (hset (d_atts d3) a None)) None).

(** a loop over the objects that were in a tree *)
Fixpoint each {A} (f : A -> Z -> option A) (l : list Z) (d : A) : option A :=
  match l with
  | [] => Some d
  | x :: l' => do d' <- f d x ; each f l' d'
  end.

(** olsrv2_tc.c:222-238 [olsrv2_tc_node_remove] after the edges *)
Definition node_finish (d : db) (n : Z) : option db :=
  do x <- d_nodes d n ;
  do d1 <- each endpoint_remove (n_atts x) d ;
  do d2 <- put_node d1 n (nd_valid None) ;
  do y <- d_nodes d2 n ;
  do d3 <- (match n_edges y, n_direct y with
            | [], false => do t <- tree_del n (d_tree d2) ;
                           Some (set_nodes (set_tree d2 t) (hset (d_nodes d2) n None))
            | _, _ => Some d2
            end) ;
  Some (changed d3 None).

(** olsrv2_tc.c:478-515 [_remove_edge].  The node removed by it has no edges, so
    the loop over the edges in [olsrv2_tc_node_remove] does nothing. *)
Definition remove_edge (d : db) (e : Z) (cleanup : bool) : option db :=
  do x <- d_edges d e ;
  if e_virt x then Some d else
  do y <- d_edges d (e_inv x) ;
  if negb (e_virt y) then put_edge d e (ed_virt true) else
  do sn <- d_nodes d (e_src x) ;
  do l <- tree_del e (n_edges sn) ;
  do d1 <- put_node d (e_src x) (nd_edges l) ;
  do dn <- d_nodes d1 (e_dst x) ;
  do m <- tree_del (e_inv x) (n_edges dn) ;
  do d2 <- put_node d1 (e_dst x) (nd_edges m) ;
  do d3 <- (match m, cleanup, n_valid dn with
            | [], true, None => node_finish d2 (e_dst x)
            | _, _, _ => Some d2
            end) ;
  Some (set_edges d3 (hset (hset (d_edges d3) (e_inv x) None) e None)).
(** olsrv2_tc.c:326-332 [olsrv2_tc_edge_remove] *)
Definition edge_remove (d : db) (e : Z) : option db := remove_edge (changed d None) e true.

(** olsrv2_tc.c:209-238 [olsrv2_tc_node_remove] *)
Definition node_remove (d : db) (n : Z) : option db :=
  do x <- d_nodes d n ;
  do d1 <- each edge_remove (n_edges x) d ;
  node_finish d1 n.

(** olsrv2_tc.c:356-385 [olsrv2_tc_endpoint_add] *)
Definition endpoint_add (d : db) (n key : Z) (mesh : bool) : option (db * Z) :=
  do x <- d_nodes d n ;
  do f <- tree_find (src_key d) (n_atts x) key ;
  match f with
  | Some a => Some (d, a)
  | None =>
    let a := d_next d in
    let d0 := bump d 1 in
    do g <- tree_find (ep_key d0) (d_eptree d0) key ;
    do dp <- (match g with
              | Some p => Some (d0, p)
              | None =>
                let p := d_next d0 in
                do t <- tree_ins (ep_key d0) p key (d_eptree d0) ;
                do t' <- t ;
                Some (bump (set_eps (set_eptree d0 t') (hset (d_eps d0) p (Some (mkTP key mesh n [])))) 1, p)
              end) ;
    let '(d1, p) := dp in
    do px <- d_eps d1 p ;
    let d2 := set_atts d1 (hset (d_atts d1) a (Some (mkTA n p no_cost no_dist 0))) in
    do t <- tree_ins (src_key d2) a (p_key px) (n_atts x) ;
    do d3 <- (match t with Some t => put_node d2 n (nd_atts t) | None => Some d2 end) ;
    do u <- tree_ins (end_key d3) a (n_addr x) (p_atts px) ;
    do d4 <- (match u with Some u => put_ep d3 p (pt_atts u) | None => Some d3 end) ;
    do d5 <- put_ep d4 p (pt_orig n) ;
    Some (d5, a)
  end.

(** ** TC messages *)

(** What the address consumer gets for one address: do the TLVs have the lengths
    asked for (olsrv2_reader.c:166-183; without it the callback is not called),
    the address, its route key, the LINK_METRIC TLVs (extension, two bytes), the
    first byte of the NBR_ADDR_TYPE TLV, and the GATEWAY TLV (extension, value)
    with the route key [_handle_gateways] makes (olsrv2_reader.c:459-483) *)
Record ain := mkAI { i_ok : bool; i_addr : Z; i_key : Z; i_metric : list (Z * (Z * Z));
                     i_type : option Z; i_gw : option (Z * bytes * Z) }.
(** A TC message: are the mandatory TLVs there with lengths in range
    (olsrv2_reader.c:134-153; without it the callback is not called), tests of
    olsrv2_reader.c:236-262, the originator, extension and value of the
    CONT_SEQ_NUM TLV, validity and interval time (C06, C07), the MPR types TLV,
    the result of [olsrv2_mpr_shall_process], the addresses *)
Record tcmsg := mkTC { m_ok : bool; m_tests : bool; m_orig : Z; m_ext : Z; m_ansn : Z;
                       m_vtime : Z; m_itime : Z; m_types : option bytes; m_process : bool; m_addrs : list ain }.

(** olsrv2_reader.c:86-104 [struct _olsrv2_data] *)
Record session := mkS { c_node : option Z; c_complete : bool; c_types : bytes; c_changed : list bool }.
Definition no_session : session := mkS None false [] (repeat false (Z.to_nat MAXDOM)).

Section Domains.
Variable ds : list DomModel.dom.

(** olsrv2_reader.c:212-336 [_cb_messagetlvs]; the flag is false when the message
    is dropped *)
Definition cb_message (d : db) (m : tcmsg) : option (db * session * bool) :=
  if negb (m_tests m) then Some (d, no_session, false) else
  if negb ((m_ext m =? 0) || (m_ext m =? 1)) then Some (d, no_session, false) else
  let complete := m_ext m =? 0 in
  do ty <- DomModel.process_types ds (m_types m) ;
  let s := mkS None complete ty (repeat false (Z.to_nat MAXDOM)) in
  if negb (m_process m) then Some (d, s, false) else
  do dn <- node_add d (m_orig m) (m_vtime m) (m_ansn m) ;
  let '(d1, n) := dn in
  let s1 := mkS (Some n) complete ty (repeat false (Z.to_nat MAXDOM)) in
  do x <- d_nodes d1 n ;
  if (if complete then seqno_is_smaller (m_ansn m) (n_ansn x) else negb (seqno_is_larger (m_ansn m) (n_ansn x)))
  then Some (d1, s1, false)
  else
    do d2 <- put_node d1 n (fun x => nd_itime (m_itime m) (nd_valid (timer_set (m_vtime m)) (nd_ansn (m_ansn m) x))) ;
    Some (d2, s1, true).

(** olsrv2_reader.c:372-393: the metrics of an address *)
Fixpoint read_costs (l : list (Z * (Z * Z))) (ci co : list Z) : option (list Z * list Z) :=
  match l with
  | [] => Some (ci, co)
  | (ext, (b0, b1)) :: l' =>
    match DomModel.get_by_ext 0 ds ext with
    | None => read_costs l' ci co
    | Some i =>
      do ci' <- (if metric_has_flag b0 DomModel.INCOMING_NEIGH then zset ci i (metric_decode b0 b1) else Some ci) ;
      do co' <- (if metric_has_flag b0 DomModel.OUTGOING_NEIGH then zset co i (metric_decode b0 b1) else Some co) ;
      read_costs l' ci' co'
    end
  end.

(** olsrv2_reader.c:404-411, 412-419, 431-438: store the costs read in a list of
    costs and note changes; costs that were not read become infinite in a
    complete TC (all lists have MAXDOM elements) *)
Fixpoint store (complete : bool) (new old : list Z) (ch : list bool) : list Z * list bool :=
  match new, old, ch with
  | c :: new', o :: old', b :: ch' =>
    let r := store complete new' old' ch' in
    if c <=? METRIC_MAX then (c :: fst r, (b || negb (o =? c)) :: snd r)
    else if complete then (METRIC_INFINITE :: fst r, (b || negb (o =? METRIC_INFINITE)) :: snd r)
    else (o :: fst r, b :: snd r)
  | _, _, _ => (old, ch)
  end.

(** olsrv2_reader.c:498-517: loop over the MPR types from position [i] *)
Fixpoint gw_types (i : Z) (types : bytes) (v : bytes) (co : list Z) (cost dist : list Z) : option (list Z * list Z) :=
  match types with
  | [] => Some (cost, dist)
  | t :: types' =>
    match DomModel.get_by_ext 0 ds t with
    | None => gw_types (i + 1) types' v co cost dist
    | Some x =>
      do c <- zget co x ;
      do cost' <- zset cost x c ;
      do b <- (if zlen v =? 1 then zget v 0 else zget v i) ;
      do dist' <- zset dist x b ;
      gw_types (i + 1) types' v co cost' dist'
    end
  end.

(** olsrv2_reader.c:447-518 [_handle_gateways] *)
Definition handle_gateways (d : db) (s : session) (n : Z) (ext : Z) (v : bytes) (key : Z) (co : list Z) : option db :=
  if (1 <? zlen v) && (zlen v <? zlen (c_types s)) then Some d else
  if negb ((0 <=? ext) && (ext <=? 2)) then Some d else
  do da <- endpoint_add d n key false ;
  let '(d1, a) := da in
  do x <- d_nodes d1 n ;
  do t <- d_atts d1 a ;
  do r <- gw_types 0 (c_types s) v co (if c_complete s then no_cost else a_cost t) (a_dist t) ;
  put_att d1 a (fun t => at_cost (fst r) (at_dist (snd r) (at_ansn (n_ansn x) t))).

(** olsrv2_reader.c:400-442: the NBR_ADDR_TYPE TLV *)
Definition cb_type (d : db) (s : session) (n : Z) (a : ain) (ci co : list Z) : option (db * session) :=
  match i_type a with
  | None => Some (d, s)
  | Some b =>
    if negb (Z.land b 1 =? 0) then
      do de <- edge_add d n (i_addr a) ;
      let '(d1, e) := de in
      do nx <- d_nodes d1 n ;
      do d2 <- put_edge d1 e (ed_ansn (n_ansn nx)) ;
      do x <- d_edges d2 e ;
      let r := store (c_complete s) co (e_cost x) (c_changed s) in
      do d3 <- put_edge d2 e (ed_cost (fst r)) ;
      do y <- d_edges d3 (e_inv x) ;
      if e_virt y then
        let q := store (c_complete s) ci (e_cost y) (snd r) in
        do d4 <- put_edge d3 (e_inv x) (ed_cost (fst q)) ;
        Some (d4, mkS (c_node s) (c_complete s) (c_types s) (snd q))
      else Some (d3, mkS (c_node s) (c_complete s) (c_types s) (snd r))
    else if negb (Z.land b 2 =? 0) then
      do da <- endpoint_add d n (i_key a) true ;
      let '(d1, t) := da in
      do nx <- d_nodes d1 n ;
      do x <- d_atts d1 t ;
      let r := store (c_complete s) co (a_cost x) (c_changed s) in
      do d2 <- put_att d1 t (fun x => at_cost (fst r) (at_ansn (n_ansn nx) x)) ;
      Some (d2, mkS (c_node s) (c_complete s) (c_types s) (snd r))
    else Some (d, s)
  end.

(** olsrv2_reader.c:343-445 [_cb_addresstlvs] *)
Definition cb_address (d : db) (s : session) (a : ain) : option (db * session) :=
  match c_node s with
  | None => Some (d, s)
  | Some n =>
    do c <- read_costs (i_metric a) no_cost no_cost ;
    do ds' <- cb_type d s n a (fst c) (snd c) ;
    match i_gw a with
    | None => Some ds'
    | Some (ext, v, key) => do d2 <- handle_gateways (fst ds') (snd ds') n ext v key (snd c) ; Some (d2, snd ds')
    end
  end.
Fixpoint cb_addresses (d : db) (s : session) (l : list ain) : option (db * session) :=
  match l with
  | [] => Some (d, s)
  | a :: l' =>
    do r <- (if i_ok a then cb_address d s a else Some (d, s)) ;
    cb_addresses (fst r) (snd r) l'
  end.

(** olsrv2_reader.c:543-553: remove what has another ANSN than node [n] *)
Definition old_edge (n : Z) (d : db) (e : Z) : option db :=
  do x <- d_edges d e ;
  do y <- d_nodes d n ;
  if e_ansn x =? n_ansn y then Some d else edge_remove d e.
Definition old_att (n : Z) (d : db) (a : Z) : option db :=
  do x <- d_atts d a ;
  do y <- d_nodes d n ;
  if a_ansn x =? n_ansn y then Some d else endpoint_remove d a.
(** olsrv2_reader.c:577-581 *)
Fixpoint tell (i : Z) (l : list bool) (d : db) : db :=
  match l with
  | [] => d
  | b :: l' => tell (i + 1) l' (if b then changed d (Some i) else d)
  end.

(** olsrv2_reader.c:526-581 [_cb_messagetlvs_end] *)
Definition cb_end (d : db) (s : session) (dropped : bool) : option (db * session) :=
  match dropped, c_node s with
  | true, _ | _, None => Some (d, s)
  | false, Some n =>
    do x <- d_nodes d n ;
    do d1 <- each (old_edge n) (n_edges x) d ;
    do y <- d_nodes d1 n ;
    do d2 <- each (old_att n) (n_atts y) d1 ;
    do z <- d_nodes d2 n ;
    Some (tell 0 (firstn (length ds) (c_changed s)) d2, mkS None (c_complete s) (c_types s) (c_changed s))
  end.

(** A TC message in the reader (rfc5444_reader.c, C58, C59): when a mandatory TLV
    is missing no callback for the message TLVs is called, but those for the
    addresses and the end are *)
Definition tc_message (d : db) (s : session) (m : tcmsg) : option (db * session) :=
  do r <- (if m_ok m then cb_message d m else Some (d, s, true)) ;
  let '(d1, s1, go) := r in
  if go then
    do q <- cb_addresses d1 s1 (m_addrs m) ;
    cb_end (fst q) (snd q) false
  else cb_end d1 s1 true.

(** ** Neighbors *)

(** NHDP neighbors by number: originator (none: unspecified) *)
Record world := mkW { w_db : db; w_sess : session; w_nb : heap (option Z) }.

(** olsrv2_tc.c:548-571 [_cb_neighbor_remove] for the originator [o] *)
Definition nb_remove (d : db) (o : option Z) : option db :=
  match o with
  | None => Some d
  | Some a =>
    do g <- node_get d a ;
    match g with
    | None => Some d
    | Some n =>
      do d1 <- put_node d n (nd_direct false) ;
      do x <- d_nodes d1 n ;
      match n_valid x with None => node_remove d1 n | Some _ => Some d1 end
    end
  end.
(** olsrv2_tc.c:517-547 [_cb_neighbor_change]: the originator has changed to [o] *)
Definition nb_change (d : db) (o : option Z) : option db :=
  do d1 <- nb_remove d o ;
  match o with
  | None => Some d1
  | Some a =>
    do g <- node_get d1 a ;
    do dn <- (match g with Some n => Some (d1, n) | None => node_add d1 a 0 0 end) ;
    put_node (fst dn) (snd dn) (nd_direct true)
  end.

Inductive op :=
| Message (m : tcmsg)
| Timeout (n : Z)                   (* the validity timer of a node fires *)
| NbAdd (i : Z)                     (* NHDP neighbor, without originator *)
| NbSet (i : Z) (o : option Z) (j : option Z)
| NbRemove (i : Z)
| Route (p : Z).                    (* a route to endpoint [p] is updated *)

Definition same_orig (a b : option Z) : bool :=
  match a, b with Some x, Some y => x =? y | None, None => true | _, _ => false end.

(** [NbSet]: nhdp_db.c:434-484 [nhdp_db_neighbor_set_originator]; [j] is the other
    neighbor with this originator.  [Timeout]: olsrv2_tc.c:447-455, the timer has
    been stopped before (oonf_timer.c:272-275).  [Route]: for an endpoint with more
    than one attachment [_update_routing_entry] reads the originator
    (olsrv2_routing.c:917-921, 885-888, 711). *)
Definition step (w : world) (o : op) : option world :=
  match o with
  | Message m => do r <- tc_message (w_db w) (w_sess w) m ; Some (mkW (fst r) (snd r) (w_nb w))
  | Timeout n =>
    do d <- put_node (w_db w) n (nd_valid None) ;
    do d' <- node_remove d n ; Some (mkW d' (w_sess w) (w_nb w))
  | NbAdd i => Some (mkW (w_db w) (w_sess w) (hset (w_nb w) i (Some None)))
  | NbSet i o j =>
    do old <- w_nb w i ;
    if same_orig old o then Some w else
    let nb := match j with Some j => hset (w_nb w) j (Some None) | None => w_nb w end in
    do d <- nb_change (w_db w) o ;
    Some (mkW d (w_sess w) (hset nb i (Some o)))
  | NbRemove i =>
    do old <- w_nb w i ;
    do d <- nb_remove (w_db w) old ;
    Some (mkW d (w_sess w) (hset (w_nb w) i None))
  | Route p =>
    do x <- d_eps (w_db w) p ;
    if 1 <? zlen (p_atts x) then do y <- d_nodes (w_db w) (p_orig x) ; Some w else Some w
  end.
Fixpoint run (w : world) (ops : list op) : option world :=
  match ops with
  | [] => Some w
  | o :: ops' => do w' <- step w o ; run w' ops'
  end.
End Domains.

(** olsrv2_tc.c:109-120 [olsrv2_tc_init] *)
Definition empty_db : db := mkDb (fun _ => None) [] (fun _ => None) (fun _ => None) (fun _ => None) [] 0 [].
Definition init : world := mkW empty_db no_session (fun _ => None).
